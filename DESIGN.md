# Formal model of treeno: design

The subject is the Python package in `/repo/treeno`: an object model of Trino SQL
(types, expressions, relations), a printer (`str(x)` / `x.sql(opts)`), and a
converter from an ANTLR parse tree back to objects
(`type_from_sql`, `expression_from_sql`, `query_from_sql`).

All proofs are in Coq 8.16.1, standard library only, under `rocq/theories`.

## 1. Shape of the model

    text --lex--> tokens --parse and visit--> object --print--> text
          Lexer.v         TypeParser.v, Parser.v   Ast.v   Sql.v

* Text is a Coq `string` (8-bit code units).  Python text is a sequence of
  code points; code points above 255 are outside the model.  The only
  alphabet-dependent operations are the lexer (ASCII classes of the grammar),
  `str.upper`/`str.lower` (modelled on ASCII letters only) and `str.splitlines`
  (modelled for the separators it knows below 256).
* Python exceptions are values: `result A := Ok a | Err e` with `e` naming the
  exception class.
* Objects are inductive trees (`node` in `Ast.v`).  `data_type`, which Python
  stores in each value object and computes in `__attrs_post_init__`, is a
  function of the tree (`check`, `data_type`; `Field`, `Literal`, `Cast`, `Star`
  carry their own), returning `Err` when construction would raise.
* Python parses the whole text with ANTLR and then visits the tree.  The model
  fuses the two: a parser returns, in an outer `result`, whether the text is in
  the language, and in an inner one what the visitor returns or raises.
* Recursion of the parser is on explicit fuel, given by the number of tokens;
  running out of fuel is a distinct outcome that no theorem confuses with
  success or failure.
* `resolve` of a relation mutates it; the model returns the changed object.

## 2. Files

| file | contents |
|---|---|
| `PyStr.v` | exceptions, Python string helpers, `util.py` |
| `Printer.v` | `printer.py`, print options of `base.py` |
| `Types.v` | `datatypes/types.py`, `datatypes/builder.py` |
| `Conversions.v` | `datatypes/conversions.py` |
| `Inference.v` | `datatypes/inference.py`, Python `Decimal` text, construction and negation |
| `Floats.v` | Python's `float(text)` and `repr` of a float |
| `UniText.v` | `visitUnicodeStringLiteral` with Python's `unicode_escape` decoder |
| `Lexer.v` | token rules of `grammar/SqlBase.g4` |
| `TypeParser.v` | grammar rules and visitors of data types |
| `Functions.v` | the registry of `functions/*.py`: names, modules, arity, result types |
| `Ast.v` | the value / query / relation classes and their constructors |
| `Sql.v` | the `sql` methods |
| `Walk.v` | `children` and `attr.evolve` |
| `Parser.v` | grammar rules of expressions and queries with their visitors in `builder/convert.py` |
| `Schema.v` | `Schema`, all `resolve` methods of `relation.py`, `datatypes/resolve.py` |
| `Equals.v` | `Sql.equals` |
| `PyOps.v` | the operators of Python on values, `wrap_literal`, and how Python dispatches them |
| `Atoms.v` | names, integers and texts counted in tokens and in objects |
| `Size.v` | objects counted against tokens |
| `Visit.v` | `visitor.py` and the `visit` methods, for a visitor that descends everywhere |
| `Visitor.v` | the same for a visitor that descends at some objects only |
| `TableState.v` | `Table` with the schema it remembers |
| `Cli.v` | the commands `format` and `schema` of `cli.py` |
| `Tree.v` | the command `tree` of `cli.py`, up to drawing |
| `Spelling.v` | specification side: tokens up to spelling, and the ways to write a token sequence |
| `Tokens.v`, `Good.v` | specification side: tokens of an object without layout; the fragments |
| `Grammar.v` | specification side: the language as rules from tokens to objects |
| `SmallTrees.v`, `JoinTrees.v` | small tree types of their own (arithmetic, conditions, joins) used in statements |
| `Parse*.v`, `*Facts.v`, `*Reads.v`, `TypeRoundTrip.v`, `TypeObjects.v`, `ColumnTypes.v`, `Unvar.v` | proofs |
| `Properties*.v` | the property theorems, each with `Print Assumptions` and a concrete case |

Every definition of the model cites the file and lines it models.

## 3. Method per property

* C01 the constructor on raw parameter maps; equivalence with a
  declarative validity predicate, by case analysis over the type table.
* C02, C03, C04 lexer + parser + visitor for types; structural
  induction on the type.
* C05, C06, C07, C34, C36, C39 - C43 `conversions.py` and the constructors that use
  it; case analysis; C06 against a
  semantic set of representable numbers.
* C08, C09, C15, C16 arithmetic on decimal texts; induction on digit lists.
* C10, C11, C12 `printer.py`; induction over item lists / characters.
* C13, C14 lexer lemmas by induction over the text.
* C17 - C27, C35 three steps: the text of an object lexes to its tokens in both
  print modes (`SqlReads.v`), the parser reads these tokens back
  (`ParseMain.v`, `ParseWhole.v`, by induction on the tree with fuel), and the
  visitor returns the object.
* C37, C51 the same steps for texts that are not the print of an object (EXISTS,
  doubled parentheses, set operations without parentheses), from the parts of a
  printable query (`main_core`, `core_of` in `ParseWhole.v`).
* C28, C29, C30, C44 - C50 resolution, scopes and `Schema.merge` against relational
  specifications.
* C52, C53 resolving changes only the types stored in columns and stars
  (`erase`), and the text does not depend on them (`ColumnTypes.v`).
* C54 every walk is a walk over the direct parts (`over`, `step`); induction on the tree.
* C55 one lemma per parser: run on respelled tokens it gives a related result and
  leaves the respelled rest (`sim` in `SpellFacts.v`); gaps in `GapFacts.v`.
* C57 every helper of `treeify` is injective on the parts it shows; the texts of numbers,
  decimals and types determine them (`ShowFacts.v`), and so do the names of the classes.
  What is shown and skipped: the rules `shows` of `TreeShows.v` over the attributes that
  `asdict` (`Equals.v`) gives, which are a second, independent account of every class.
* C58 one invariant per parser (`gives` in `ReadTypes.v`): on well formed tokens it
  returns a thunk of a well formed object (`well` in `ReadShape.v`); lambdas by a
  substitution lemma (`subst_well` in `ReadVisit.v`).
* C59 the rules of `Grammar.v` (a specification, stated without the parser) derive tokens;
  one lemma per rule says that the parser reads them (`ParseMore.v`, `ParseMoreQ.v`), and an
  induction over derivations combines them (`GrammarFacts.v`).
* C60 the phrases `PNothing` and `PHidden` of the same rules; what the parser does with
  them is in `ParseNone.v`, and that clauses are lost is part of the induction for C59.
* C61 texts of objects with a query as operand (`PropertiesOperand.v`); the printer gives a query no
  parentheses, so the reading either fails or merges the query with what follows.
* C62 the constructors as a typing judgement `has` (`Typing.v`, a specification that does not mention
  `check`), proved equivalent to `check` by induction over the parts (`PropertiesRules.v`).
* C63 the rules `means` of `Accepts.v` (a specification without the parser) cover everything the model of
  the parser reads; one lemma per parser says that the tokens it takes are such a phrase (`eats` in
  `AcceptFacts.v`), by induction over the fuel (`all_rules` in `AcceptQuery.v`).
* C64 the decoder on a list of spelt characters, by induction over the list (`UniFacts.v`).
* C65 rounding in rational numbers (`FloatNear.v`: bounds on the significand from `Z.log2`, then the
  nearest integer); the tokens of the text of a float.
* C66 the skeletons of the parser against languages written down from the grammar (both ways); the loss is an
  instance of C59/C60, whose rules have phrases for JSON functions and table functions.
* C67 `demand` (`Parens.v`) counts the parentheses the grammar asks for; below every accepted text by induction
  over `means`, equal to the printed ones because `needs_parens` holds only where the level is too loose.
* C68 the methods and the dispatch of Python (`PyOps.v`); whole trees by induction, then C17.
* C69 an inductive relation `alike` that never mentions the model's comparison; both directions by induction.
* C70 counts occurrences in tokens and in objects and compares the counts by induction over `means` (C63). A U& string
  counts for any text; function names, type names, decimals, doubles, intervals and LISTAGG separators are not counted.
* C71 the traversal of C54 with a choice where to descend (`Visitor.v`); what is seen is an inductive relation.
* C72 a store of tables and shared `Schema` objects (`TableState.v`); an invariant over the history of calls.
* C73 counting quoted tokens against the names of an object (`PropertiesQuoted.v`); with C70 for what the format command writes.
* C74 the same counting in the other direction (`PropertiesKept.v`); what gets lost is a decidable condition, with a witness for each case.
* C75 the greedy loop is never behind any other layout of the same list (`PropertiesLines.v`).
* C76 every rule of `Accepts.v` makes at most as many objects as it has tokens of its own (`Size.v`, `PropertiesSize.v`).
* C77 by induction over the parts of an object, each clause against its tokens (`PropertiesComplete.v`).
* C78 every parser of types takes a token or reports a syntax error, with eight steps of recursion for each token (`PropertiesTypeErrors.v`).
* C79 case analysis and induction over nested types (`PropertiesTypeFails.v`).
* C31, C56 `Sql.equals` on the `attr.asdict` image; C56 one equivalence per attribute, and
  the attribute names of all classes to tell different kinds apart.
* C32, C38 finite registry.
* C33 structural induction over lambda bodies.

Where the code violates the natural claim, a theorem named `..._refuted` gives a
concrete witness, and the property states the largest claim that does hold.

### The fragments

`lexable` (`Tokens.v`) is the set of objects whose text has the intended tokens;
`good` (`Good.v`) the set for which reading back is proved to give the same
object.  They are properties of each node and its direct parts, decidable
(`lexable_dec`, `good_dec`), and nothing else is assumed by C17 - C26 and C35.
Outside `good` are:

* text and names containing their own quote character, or starting / ending
  with one (there is no escaping); unquoted names (USING, window names, column
  aliases, lambda parameters) that are not plain identifiers;
* literals whose type is not the inferred one; floats; decimals printed with an
  exponent; negative decimals of more than 28 digits; `-` before a number;
* columns with a known data type or with an object as table;
* operands for which the precedence table of `pemdas_str` leaves out parentheses
  that the grammar needs; `NOT` over `=` and `<>`;
* one-element rows, queries as operands, intervals, `NORMALIZE`, calls outside
  the imported function modules, `FROM_UNIXTIME` with one and
  `APPROX_PERCENTILE` with three arguments, `IGNORE NULLS` without a window;
* set operations, `WITH` names with column aliases, OFFSET / LIMIT 0, joins
  without criterion whose right side is a join, aliases over anything but a
  primary relation, UNNEST WITH ORDINALITY, aliased stars.

### The rules of the grammar

`Grammar.v` covers more than `good`, since it speaks about texts that the printer
never writes, among them sub-queries as operands.  Not covered by its rules are:
dereferencing anything but `table.column`, several relations after FROM, queries in
parentheses as parts of queries, single grouping expressions that start with a
parenthesis, doubles, keywords used as names, types in other spellings than the
printed one (upper or lower case), lambdas without parameters, and the alternatives
whose visitors raise; RETURNING, PASSING and FORMAT of the JSON functions, descriptors and
the clauses of a table argument, and words that are not reserved in lower case there.  The
alternatives that are read as nothing have rules of their
own (`PNothing`, `PHidden`); what happens to them as parts of something else is
covered for the clauses that disappear and for comparisons.

## 4. Trusted base

* The Coq kernel.  No axioms: `Print Assumptions` follows every theorem and
  prints "Closed under the global context" for all of them.  (A check of the
  compiled library also lists the assumptions of `Coq.ssr.ssrunder` from the
  standard library; they are loaded, because tactics of `lia` load them, and
  not used by any theorem.)
* The reading of the Python source and of the ANTLR grammar: nothing here is
  extracted from or executed against the code.
* Behaviour of Python and libraries written down from their documentation:
  `str` methods, `Decimal` text / negation, `attr.evolve`, `attr.asdict`,
  dict equality, ANTLR longest match and alternative order.

### Modelled

`util.py` (quoting, chaining, parenthesising, `children`), `printer.py`,
`base.py` (print options, `Sql.equals`), `datatypes/*`, all classes of
`expression.py`, `relation.py`, `window.py`, `groupby.py`, `orderby.py` and
`functions/*` (construction, `data_type`, `sql`), the lexer and the parser rules
for types, expressions and queries with the visitors of `builder/convert.py`,
`resolve`, `Schema.merge`, the `visit` methods, `cli.py` (`get_sql_object`, `format`, `schema` without
colours, `treeify` and `tree` up to drawing), the operator methods of `Value` and `wrap_literal`.

### Not modelled

* ANTLR's error recovery: text outside the language is `SyntaxErr` (the code
  prints a message and goes on with a repaired tree).
* These give `NotModelled`: unicode strings with codes above 00FF or `\N{...}`, measures
  (`identifier OVER`), AT TIME ZONE with a string, `=` between two nothings, optional arguments that are nothing.
  DDL / DML statements; `MATCH_RECOGNIZE`.
* `SELECT ALL * 2` and `COUNT(ALL * 2)`: ALL is taken as the quantifier, ANTLR
  would take it as a name.
* Floats are carried as their text: in `Equals.v` they equal only floats of the same text (Python has
  -0.0 == 0.0, and 1.0 == 1 across types).  `float_repr` was compared with CPython on 434 texts.
* Visitors whose descent depends on what they saw before, and what their methods return; in queries, the mutable state of a
  table's `_column_schema` (only the default, empty one; for single tables see C72); the alternative order
  of several exceptions while rebuilding an object.
* `cli.py`: `antlr_tree`, and drawing by nltk.
* Operators of Python with two built-in operands, `%` with a text on the left, relations that are no values on
  the left; `in` without Python's shortcut for the same object (the result is the same).
* The `data_type` that a set query keeps after `resolve`: Python leaves the one computed
  when the query was built, the model has the one of the resolved parts.  Only the tree
  command shows it.
* The imported function modules are a parameter (`env`) of the parser, since
  `functions/__init__.py` imports nothing (C38).

## 5. Defects found

Most are a theorem, an example or a condition of a fragment; the rest was noticed
while reading and is left out of the model.

Types and conversions
* `promote_varchar_to_char` of an unbounded varchar gives CHAR(1).
* Common type of rows of different length is cut to the shorter one; time types
  with different parameters raise; QDIGEST of different types fails an assertion.
* `type_from_sql` of DOUBLE PRECISION works but `DOUBLE PRECISION 'x'` as an
  expression is a TypeError.

Literals and names
* Nothing is escaped: a quote in a text or name is printed as it is, and
  reading strips quotes at the ends and keeps doubled quotes doubled.
* Small decimals print as `1E-7`, `5.` as `5`; `-x` rounds to 28 digits; a
  negative decimal gets a different type when read back; a float prints as a
  decimal literal or as a text that cannot be read (C65).
* Unicode strings: codes of six digits and doubled escape characters raise, and a
  backslash is an escape even after UESCAPE (C64).
* `Negative` of a number is read back as a negative literal; `--` is a comment.

Expressions
* Missing parentheses for several operand / operator pairs, for queries as
  operands, for one-element rows.
* `NOT a = b` is printed as `a <> b`, which is another object (C77); `!=` raises NotImplementedError.
* EXISTS, TRIM, SUBSTRING, EXTRACT, POSITION, GROUPING, the JSON functions, binary literals and
  parenthesised sub-queries are read as `None`; AT TIME ZONE gives a `str`.
* COUNT(DISTINCT x) loses DISTINCT; lower case `all`, `distinct` and interval
  fields raise; three-argument APPROX_PERCENTILE swaps arguments; NORMALIZE
  cannot be printed; FROM_UNIXTIME with one argument raises ValueError;
  AT_TIMEZONE / WITH_TIMEZONE raise KeyError; KURTOSIS takes two arguments.
* A lambda whose body contains a table raises TypeError; a lambda without
  parameters prints text that cannot be read.
* The width of 80 characters is kept by lists, not by the lines of a statement (C75).
* `padding` of a multi-line layout alters text literals with line breaks.
* A concatenation, printed as a call, is put in parentheses as if it were the operator `||` (C67).
* Written in Python, `0 < x < 10` keeps only `x < 10`, `x in [y]` is always true, and `1 + x` raises TypeError
  since there are no reflected methods (C68).
* `==` of two aliased sub-queries, two laterals or two ON conditions ignores their content (C69).

Queries
* Set operations drop WITH, ORDER BY, OFFSET and LIMIT of the outer query, and
  no printed set operation can be read back (without parentheses it can, C51).
* WHERE EXISTS (q), HAVING EXISTS (q), FROM ((q)) and FROM TABLE(f(...)) are silently dropped (C37, C60, C66); a
  parenthesised query alone is `None` (C37).
* LIMIT 0 and OFFSET 0 are dropped; FETCH FIRST is dropped; `select distinct`, `limit all`
  and `tablesample bernoulli` in lower case raise, and `Select` is no keyword (C55).
* Joins without criterion keep only the leftmost table of a join on their right.
* Column aliases of a WITH name are printed without parentheses; an aliased star
  without AS; WITH ORDINALITY with blanks between its letters.
* `OVER w` is printed with a frame; a named window of the same name fails an
  assertion.

Resolution
* A table object keeps the columns of an earlier `resolve`, and tables made with one `Schema` object add their
  names to it and so answer to each other's names (C72).
* A qualified column name is ignored when the table has one column, and raises
  when it has several (`A and B or C` in `_make_field`).
* Columns of different sub-queries with the same name and type (also unnamed
  ones) collapse; a sub-query beside a table with a column of the same name
  raises NotImplementedError.
* A WITH name is not visible in a sub-query in FROM nor in a later WITH query (the
  documented case), but is in a sampled sub-query; it is not resolved at all without
  FROM; a table s.c is taken for the WITH name c; an alias hides a table of that name;
  only the SELECT list is resolved; VALUES in FROM raises TypeError; the ordinality column is
  missing; too few column aliases raise IndexError; a sub-query over a table in
  the SELECT list raises TypeError.

Comparison
* `Sql.equals` ignores the class of everything below the root (C31, C56).

Commands
* `treeno format` writes WHERE EXISTS (q) without the clause and raises TypeError
  for VALUES (C52); `treeno schema` writes None for a column without a name (C53);
  `treeno tree type …` raises AttributeError for every type (C57).

Visitors
* No SELECT query, join without criterion, lambda with parameters or QDIGEST_AGG can be
  traversed (AttributeError); FILTER, OVER and ORDER BY of aggregates, WITH and ORDER BY of
  queries are passed over; CORR and its like visit their arguments in reverse (C54).
