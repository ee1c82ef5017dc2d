{"id": "C01", "title": "DataType construction is a decision procedure with canonical result", "statement": "DataType(name, parameters) succeeds exactly when the upper-cased name is a known type, every parameter given is one the type has, every parameter without default is given, every given value has the right Python kind and the type's own range check passes; on success the object is canonical: upper-case name, exactly the given values plus the defaults of the parameters not given, whatever the order of the parameter mapping.  In every other case it raises.", "quantifier": "every type name and every finite parameter mapping (any keys, any nested values)", "why_tests_cant": "The domain is infinite (unbounded nesting / unbounded text); the test-suite only checks a handful of literals.", "anchors": ["treeno/datatypes/types.py: DataType.__attrs_post_init__, FIELDS, VALIDATORS"]}
{"id": "C02", "title": "Type text round trip", "statement": "For every data type object t that the public constructors can build from non-negative integer parameters (no bool in place of an integer, no ROW without columns), type_from_sql(str(t)) is equal to t, at any nesting depth of ARRAY, MAP, ROW and QDIGEST.  For each excluded kind of object the claim fails (proved counterexamples).", "quantifier": "every well-formed data type, any nesting depth, any parameter values, any ROW width", "why_tests_cant": "The domain is infinite (unbounded nesting / unbounded text); the test-suite only checks a handful of literals.", "anchors": ["treeno/datatypes/types.py: DataType.sql", "treeno/builder/convert.py: visitGenericType, visitRowType, visitDateTimeType, visitIntervalType", "treeno/grammar/SqlBase.g4: type_"]}
{"id": "C03", "title": "Type text is unambiguous", "statement": "Two data types print the same SQL text only if they are equal.", "quantifier": "every pair of well-formed data types", "why_tests_cant": "The domain is infinite (unbounded nesting / unbounded text); the test-suite only checks a handful of literals.", "anchors": ["treeno/datatypes/types.py: DataType.sql"]}
{"id": "C04", "title": "Type names are case-insensitive on input", "statement": "For every interval-free well-formed data type, the lower-cased SQL text parses to the same type as the original text (for INTERVAL types the lower-cased text is rejected, which is proved as a counterexample to the unrestricted claim).", "quantifier": "every well-formed data type, any nesting", "why_tests_cant": "The domain is infinite (unbounded nesting / unbounded text); the test-suite only checks a handful of literals.", "anchors": ["treeno/builder/convert.py: visitGenericType, visitIntervalType", "treeno/grammar/SqlBase.g4: keyword tokens"]}
{"id": "C05", "title": "Arithmetic result type is symmetric and idempotent", "statement": "get_arithmetic_type(a, b) either gives the same type as get_arithmetic_type(b, a), or both raise; and get_arithmetic_type(a, a) is a.", "quantifier": "every pair of data types", "why_tests_cant": "The domain is infinite (unbounded nesting / unbounded text); the test-suite only checks a handful of literals.", "anchors": ["treeno/datatypes/conversions.py: get_arithmetic_type, common_numeric, common_string, common_datetime"]}
{"id": "C06", "title": "Exact-numeric result type holds every operand value", "statement": "When a and b are TINYINT, SMALLINT, INTEGER, BIGINT or DECIMAL(p,s) with s<=p and get_arithmetic_type(a, b) returns a type c, then every number representable in a or in b is representable in c.", "quantifier": "every pair of exact numeric types and every representable number", "why_tests_cant": "Needs all 38x39 decimal parameter pairs and all numbers.", "anchors": ["treeno/datatypes/conversions.py: common_numeric, common_integral, common_decimal, promote_integral_to_decimal"]}
{"id": "C07", "title": "Common supertype outcome is order independent", "statement": "common_supertype(a, b) and common_supertype(b, a) return the same type, or both raise; and common_supertype(a, a) is a for every a.", "quantifier": "every pair of data types", "why_tests_cant": "The domain is infinite (unbounded nesting / unbounded text); the test-suite only checks a handful of literals.", "anchors": ["treeno/datatypes/conversions.py: common_supertype"]}
{"id": "C08", "title": "Integer literals get the narrowest standard integer type", "statement": "For an integer v in the signed 64-bit range the inferred type is INTEGER when v fits 32 signed bits and BIGINT otherwise, so v is always representable in the inferred type; outside 64 bits the claim fails (proved counterexample: BIGINT is still inferred).", "quantifier": "every integer", "why_tests_cant": "2^64 values.", "anchors": ["treeno/datatypes/inference.py: infer_integral, infer_type"]}
{"id": "C09", "title": "Decimal literals get a type that holds them exactly", "statement": "For every Decimal that prints without exponent, if inference returns DECIMAL(p,s) then the value is representable in DECIMAL(p,s), and s is the number of its fractional digits.", "quantifier": "every decimal value (sign, coefficient, exponent)", "why_tests_cant": "The domain is infinite (unbounded nesting / unbounded text); the test-suite only checks a handful of literals.", "anchors": ["treeno/datatypes/inference.py: infer_decimal", "treeno/builder/convert.py: visitDecimalLiteral"]}
{"id": "C10", "title": "List layout: default mode is a plain join, pretty mode only adds line breaks", "statement": "JoinPrinter/join_stmts in default mode returns the items joined by the delimiter; in pretty mode the result is the same text with line feeds inserted directly in front of some items, never before the first one, and when every item is shorter than the configured width and the delimiter is at most one character no output line exceeds that width (for longer delimiters it can: proved counterexample); it raises when the indentation is not smaller than the line length.", "quantifier": "every list of items, every delimiter, every width", "why_tests_cant": "The domain is infinite (unbounded nesting / unbounded text); the test-suite only checks a handful of literals.", "anchors": ["treeno/printer.py: JoinPrinter, join_stmts"]}
{"id": "C11", "title": "Statement layout: default mode is 'KEY value' joined by single blanks, in insertion order", "statement": "StatementPrinter in default mode prints each entry as key, or key blank value, in insertion order separated by one blank; adding a key twice raises; in pretty mode there is one output block per entry in the same order and all keys are right aligned on one river column, and removing the layout white space gives the same words.", "quantifier": "every sequence of entries", "why_tests_cant": "The domain is infinite (unbounded nesting / unbounded text); the test-suite only checks a handful of literals.", "anchors": ["treeno/printer.py: StatementPrinter"]}
{"id": "C12", "title": "Indentation helper keeps the text", "statement": "pad(s, n) returns s unchanged when s has no line break; otherwise it keeps every line, in order, and prefixes exactly n blanks to each line but the first.", "quantifier": "every text and every indentation width", "why_tests_cant": "The domain is infinite (unbounded nesting / unbounded text); the test-suite only checks a handful of literals.", "anchors": ["treeno/printer.py: pad"]}
{"id": "C13", "title": "String literal round trip", "statement": "For every text x without a leading or trailing single quote and in which single quotes occur only in doubled pairs, parsing the printed literal gives back exactly x; and the printed text is always exactly one token.  For other texts the claim fails (counterexamples: a quote inside breaks out of the literal, leading/trailing quotes are lost).", "quantifier": "every text", "why_tests_cant": "The domain is infinite (unbounded nesting / unbounded text); the test-suite only checks a handful of literals.", "anchors": ["treeno/util.py: quote_literal", "treeno/expression.py: Literal.sql", "treeno/builder/convert.py: visitBasicStringLiteral, visitStringLiteral", "treeno/grammar/SqlBase.g4: STRING"]}
{"id": "C14", "title": "Quoted identifier round trip", "statement": "For every name that is non-empty, does not start or end with a double quote, and has double quotes only in doubled pairs, parsing the printed column reference gives back exactly that name (including names that are SQL keywords or contain blanks, dots or other symbols).", "quantifier": "every name", "why_tests_cant": "The domain is infinite (unbounded nesting / unbounded text); the test-suite only checks a handful of literals.", "anchors": ["treeno/util.py: quote_identifier, chain_identifiers", "treeno/expression.py: Field.sql", "treeno/builder/convert.py: visitQuotedIdentifier, visitColumnReference"]}
{"id": "C15", "title": "Integer literal round trip", "statement": "For every integer v, expression_from_sql(str(Literal(v))) is the literal v with the same inferred type.", "quantifier": "every integer, any number of digits, both signs", "why_tests_cant": "The domain is infinite (unbounded nesting / unbounded text); the test-suite only checks a handful of literals.", "anchors": ["treeno/expression.py: Literal", "treeno/builder/convert.py: visitIntegerLiteral", "treeno/datatypes/inference.py: infer_integral"]}
{"id": "C16", "title": "Decimal literal round trip", "statement": "For every Decimal literal whose text has no exponent and (if negative) at most 28 significant digits and is not zero, parsing the printed text gives back the same sign, coefficient and exponent.  With more digits the negative literal is silently rounded, and very small values are printed in exponent form (both proved as counterexamples).", "quantifier": "every decimal value", "why_tests_cant": "The domain is infinite (unbounded nesting / unbounded text); the test-suite only checks a handful of literals.", "anchors": ["treeno/builder/convert.py: visitDecimalLiteral", "treeno/expression.py: Literal.sql"]}
{"id": "C17", "title": "Expression round trip", "statement": "For every expression tree built from columns, literals, arithmetic, comparison, logical, predicate, CASE, CAST, array, row, subscript, function-call and aggregate nodes whose operands respect the printable shape (listed in the formal predicate), expression_from_sql(str(e)) is e: parentheses are placed so that no operator is re-associated.", "quantifier": "every expression tree of the fragment, any depth", "why_tests_cant": "The domain is infinite (unbounded nesting / unbounded text); the test-suite only checks a handful of literals.", "anchors": ["treeno/expression.py: pemdas_str, *.sql", "treeno/builder/convert.py: ConvertVisitor", "treeno/grammar/SqlBase.g4: expression"]}
{"id": "C18", "title": "Printed expressions are unambiguous", "statement": "Two expressions of the fragment with the same printed text are the same expression; in particular (a - b) - c and a - (b - c) never print alike.", "quantifier": "every pair of expressions of the fragment", "why_tests_cant": "The domain is infinite (unbounded nesting / unbounded text); the test-suite only checks a handful of literals.", "anchors": ["treeno/expression.py: pemdas_str"]}
{"id": "C19", "title": "Pretty mode never changes the meaning of an expression", "statement": "For every expression of the fragment whose names and string literals have no line break, the pretty text and the default text are the same token sequence, so parsing the pretty text gives the same expression.  With a line break inside a literal the claim fails (counterexample).", "quantifier": "every expression of the fragment, any depth, any line width effects", "why_tests_cant": "The domain is infinite (unbounded nesting / unbounded text); the test-suite only checks a handful of literals.", "anchors": ["treeno/printer.py", "treeno/expression.py"]}
{"id": "C20", "title": "Query round trip", "statement": "For every SELECT query of the printable fragment (select list, FROM with tables, aliases, subqueries and joins, WHERE, GROUP BY, HAVING, ORDER BY, OFFSET, LIMIT, WITH), query_from_sql(str(q)) is q.", "quantifier": "every query of the fragment, any nesting depth of subqueries", "why_tests_cant": "The domain is infinite (unbounded nesting / unbounded text); the test-suite only checks a handful of literals.", "anchors": ["treeno/relation.py: SelectQuery.sql", "treeno/builder/convert.py: visitQuerySpecification, visitQueryNoWith, visitJoinRelation"]}
{"id": "C21", "title": "Pretty mode never changes the meaning of a query", "statement": "For every query of the fragment without line breaks in names and literals, pretty text and default text have the same tokens.", "quantifier": "every query of the fragment", "why_tests_cant": "The domain is infinite (unbounded nesting / unbounded text); the test-suite only checks a handful of literals.", "anchors": ["treeno/relation.py", "treeno/printer.py"]}
{"id": "C22", "title": "Clauses are printed in grammar order and only when present", "statement": "The printed SELECT query contains WITH, SELECT, FROM, WHERE, GROUP BY, HAVING, WINDOW, ORDER BY, OFFSET, LIMIT in exactly this order, each exactly when it was given a non-empty value (LIMIT 0 and OFFSET 0 are dropped: proved counterexample to 'exactly when given').", "quantifier": "every SELECT query", "why_tests_cant": "The domain is infinite (unbounded nesting / unbounded text); the test-suite only checks a handful of literals.", "anchors": ["treeno/relation.py: SelectQuery.sql, Query._constraint_string_builder"]}
{"id": "C23", "title": "Qualified table names round trip", "statement": "Parsing the printed name of a table with optional schema and catalog gives back the same table; a table with catalog but no schema cannot be built.", "quantifier": "every name/schema/catalog triple of printable names", "why_tests_cant": "The domain is infinite (unbounded nesting / unbounded text); the test-suite only checks a handful of literals.", "anchors": ["treeno/relation.py: Table", "treeno/builder/convert.py: table_from_qualifiers"]}
{"id": "C24", "title": "Ordering term round trip", "statement": "Printing and parsing an ordering term gives back the same value, direction and null ordering for all direction / null-order combinations, with defaults omitted from the text.", "quantifier": "every ordering term over the expression fragment", "why_tests_cant": "The domain is infinite (unbounded nesting / unbounded text); the test-suite only checks a handful of literals.", "anchors": ["treeno/orderby.py: OrderTerm.sql", "treeno/builder/convert.py: visitSortItem"]}
{"id": "C25", "title": "Grouping and window clauses round trip", "statement": "Grouping sets, CUBE, ROLLUP, plain grouping lists and window specifications (partition, ordering, frame type and frame bounds) survive printing and parsing.", "quantifier": "every such clause over the expression fragment", "why_tests_cant": "The domain is infinite (unbounded nesting / unbounded text); the test-suite only checks a handful of literals.", "anchors": ["treeno/groupby.py", "treeno/window.py", "treeno/builder/convert.py: visitGroupBy, visitWindowSpecification"]}
{"id": "C26", "title": "Join trees keep their association", "statement": "A join tree printed with the right operand parenthesised or leaf-only parses back to the same tree; for right-nested unparenthesised joins the text re-associates (counterexample).", "quantifier": "every join tree", "why_tests_cant": "The domain is infinite (unbounded nesting / unbounded text); the test-suite only checks a handful of literals.", "anchors": ["treeno/relation.py: Join.sql, relation_string", "treeno/builder/convert.py: visitJoinRelation"]}
{"id": "C27", "title": "Set operations: what survives printing", "statement": "Printing UNION/INTERSECT/EXCEPT keeps both operands, operator and quantifier; WITH, ORDER BY, OFFSET and LIMIT attached to the set operation are lost from the text (proved counterexample), and the printed text of nested set operations cannot be read back.", "quantifier": "every set query", "why_tests_cant": "The domain is infinite (unbounded nesting / unbounded text); the test-suite only checks a handful of literals.", "anchors": ["treeno/relation.py: SetQuery._to_string", "treeno/builder/convert.py: visitSetOperation"]}
{"id": "C28", "title": "Unqualified column resolution", "statement": "Resolving an unqualified column against a schema gives it the type of the single schema column of that name, leaves it unchanged if there is none, and raises if there is more than one; all other parts of the expression are unchanged, and resolving twice is the same as resolving once.", "quantifier": "every expression and every schema", "why_tests_cant": "The domain is infinite (unbounded nesting / unbounded text); the test-suite only checks a handful of literals.", "anchors": ["treeno/datatypes/resolve.py: _make_field, resolve_fields"]}
{"id": "C29", "title": "Qualified column resolution", "statement": "Resolving a table-qualified column should give the type of that table's column of that name; the implementation ignores the column name, so with a multi-column table it raises and with a single-column table it returns the type of a differently named column (proved counterexamples); when the qualified table contributes exactly one column and that column has the name, the result is right.", "quantifier": "every field and every schema", "why_tests_cant": "The domain is infinite (unbounded nesting / unbounded text); the test-suite only checks a handful of literals.", "anchors": ["treeno/datatypes/resolve.py: _make_field"]}
{"id": "C30", "title": "Schema merge keeps columns", "statement": "Merging two schemas keeps all columns of the left one in order, then those of the right one not already present, and the union of the relation names; columns of distinct base tables are never dropped.  Columns of distinct sub-queries with the same name and type are dropped, and a sub-query beside a table with a column of the same name raises NotImplementedError (counterexamples).  Schemas with distinct column names merge without loss whatever the columns come from.", "quantifier": "every pair of schemas", "why_tests_cant": "The domain is infinite (unbounded nesting / unbounded text); the test-suite only checks a handful of literals.", "anchors": ["treeno/relation.py: Schema.merge, SchemaField"]}
{"id": "C31", "title": "Structural comparison of queries", "statement": "Sql.equals is an equivalence relation on trees; trees that compare equal have a root of the same class and data type and mention every table, column and text literal equally often; on columns and on joins of tables it is exact. It does not tell all trees apart: below the root, operators of the same kind (WHERE a = b, WHERE a <> b), CAST and TRY_CAST, functions with the same parameters and type (MIN, MAX), CUBE and ROLLUP compare equal.", "quantifier": "every pair / triple of trees", "why_tests_cant": "The domain is infinite (unbounded nesting / unbounded text); the test-suite only checks a handful of literals.", "anchors": ["treeno/base.py: Sql.equals"]}
{"id": "C32", "title": "Function registry is a bijection", "statement": "Each registered SQL function name denotes exactly one class whose printed call starts with this very name, so a call of any registered function prints under the name it was parsed from, and positional arguments keep their order.", "quantifier": "every registered function and every argument list", "why_tests_cant": "The registry is built at import time; all names and all argument lists.", "anchors": ["treeno/functions/base.py", "treeno/functions/*.py: FN_NAME"]}
{"id": "C33", "title": "Lambda bodies bind their parameters", "statement": "Building a lambda from parameter names and a body replaces exactly the unqualified columns named like a parameter by parameter references, leaves everything else unchanged, and printing then parsing gives the same lambda.", "quantifier": "every parameter list and every body", "why_tests_cant": "The domain is infinite (unbounded nesting / unbounded text); the test-suite only checks a handful of literals.", "anchors": ["treeno/expression.py: Lambda.from_generic_expr", "treeno/builder/convert.py: visitLambda_"]}
{"id": "C34", "title": "VALUES and COALESCE typing is a fold of the common supertype", "statement": "The type of an inline table is the left fold of the common supertype over its rows starting from unknown.  If all rows have integer or floating types the result is the widest of them, whatever the row order; if all rows have the same type it is that type.  In general it should not depend on row order but does (counterexamples: NULL after a typed row raises, NULL before it does not; three strings of different lengths).  COALESCE ignores NULL arguments and gives the widest type; with only NULLs it raises.", "quantifier": "every list of rows", "why_tests_cant": "The domain is infinite (unbounded nesting / unbounded text); the test-suite only checks a handful of literals.", "anchors": ["treeno/relation.py: ValuesQuery.__attrs_post_init__", "treeno/functions/conditional.py: Coalesce"]}
{"id": "C35", "title": "Queries ignore what follows them", "statement": "query_from_sql should reject input that is not a query; but any text that starts with a complete printed query of the fragment and continues with a closing parenthesis and arbitrary tokens is accepted as that query.", "quantifier": "every query of the fragment and every continuation", "why_tests_cant": "The domain is infinite (unbounded nesting / unbounded text); the test-suite only checks a handful of literals.", "anchors": ["treeno/grammar/parse.py: AST.query", "treeno/grammar/SqlBase.g4: query"]}
{"id": "C36", "title": "Common supertype holds the values of both types", "statement": "When two exact numeric types of different names have a common supertype, every number of either type is a value of it; the common type of VARCHAR(n) and CHAR(m) is CHAR(max(m, min(n, 65536))), and arithmetic on two bounded strings of one kind gives the longer length.  Two different types of the same name never get a useful supertype: the result is UNKNOWN (or it raises), and an unbounded VARCHAR becomes CHAR(m) (proved counterexamples).", "quantifier": "every pair of exact numeric types and every number; every pair of string types", "why_tests_cant": "all precisions, scales, lengths and numbers", "anchors": ["treeno/datatypes/conversions.py:common_supertype", "treeno/datatypes/conversions.py:common_numeric", "treeno/datatypes/conversions.py:common_string"]}
{"id": "C38", "title": "Functions the parser does not know without further imports", "statement": "After importing only the SQL parser (treeno.builder.convert), the registered functions are exactly those of the aggregate, common, session and string modules: every call of a conditional, date-time or math function (COALESCE, IF, NULLIF, TRY, NOW, DATE_TRUNC, POWER, ...) raises AssertionError whatever its arguments, although the library defines a class for it.", "quantifier": "every function class and every argument list", "why_tests_cant": "The test-suite imports the function modules itself, so the registry it sees is always complete.", "anchors": ["treeno/functions/__init__.py", "treeno/functions/base.py: NAMES_TO_FUNCTIONS", "treeno/builder/convert.py: imports, visitFunctionCall"]}
{"id": "C39", "title": "Common supertype of date, time and sketch types", "statement": "common_supertype of a DATE or TIME with a TIMESTAMP is exactly that TIMESTAMP, in either order; DATE with TIME is UNKNOWN; HYPERLOGLOG with P4HYPERLOGLOG is HYPERLOGLOG.  Two TIMESTAMPs, or two TIMEs, that differ in precision or time zone should have a common type but always raise, in common_supertype and in arithmetic.", "quantifier": "every precision and time zone flag", "why_tests_cant": "unboundedly many type parameters and operand lists; the test-suite checks single examples", "anchors": ["treeno/datatypes/conversions.py: common_datetime, common_hll, common_time, common_timestamp, common_supertype"]}
{"id": "C40", "title": "Type of a subtraction", "statement": "The difference of two dates or timestamps (different kinds, or the same type) is INTERVAL DAY TO SECOND, as is that of two TIMEs of one type; every other difference has exactly the type (or error) of the sum.  Timestamps that differ in precision cannot be subtracted: building the expression raises (proved counterexample).", "quantifier": "every pair of data types", "why_tests_cant": "unboundedly many type parameters and operand lists; the test-suite checks single examples", "anchors": ["treeno/expression.py: Minus.__attrs_post_init__, Add.__attrs_post_init__"]}
{"id": "C41", "title": "Type of IF", "statement": "IF(c, t, f) over integer and floating types has the wider of the types of its branches whatever their order; with equal branch types that type; with one branch the type of this branch.  A NULL branch should be accepted but raises in either position.", "quantifier": "every pair of branch types", "why_tests_cant": "unboundedly many type parameters and operand lists; the test-suite checks single examples", "anchors": ["treeno/functions/conditional.py: If.__attrs_post_init__"]}
{"id": "C42", "title": "Type of CONCAT", "statement": "CONCAT of string types with at least one CHAR is a CHAR whose length is the sum of the operand lengths (a VARCHAR(n) counts min(n, 65536), an unbounded VARCHAR counts 1); of VARCHARs only it is an unbounded VARCHAR; of VARBINARY it is VARBINARY; an operand of unknown type makes it UNKNOWN.  Arrays and single elements of integer or floating types in any order give an array of the widest element type, and arrays of one type give this type at any depth.  Depths that differ by more than one raise.", "quantifier": "every operand list", "why_tests_cant": "unboundedly many type parameters and operand lists; the test-suite checks single examples", "anchors": ["treeno/functions/common.py: Concatenate.__attrs_post_init__, _get_array_concat_type, _get_string_concat_type"]}
{"id": "C43", "title": "Row type of UNION, INTERSECT and EXCEPT", "statement": "For rows of equal length with integer and floating columns the set operation has, column by column, the wider type; equal types on both sides are kept whatever they are.  Rows of different lengths should be rejected but are silently cut to the shorter one, and a NULL column on one side raises although a single NULL column does not (proved counterexamples).", "quantifier": "every pair of row types, any number of columns", "why_tests_cant": "unboundedly many type parameters and operand lists; the test-suite checks single examples", "anchors": ["treeno/relation.py: SetQuery._compute_data_type"]}
{"id": "C44", "title": "Output columns of a resolved SELECT", "statement": "After q.resolve(schema) on a SELECT query the returned schema has exactly one column per item of the SELECT list, in order, under the name of the item and with the data type of the resolved item, all belonging to q and under no relation name; with a FROM clause all items are resolved against one schema, and no other clause of q changes.  (Consequently columns in WHERE, GROUP BY, HAVING and ORDER BY are never resolved: proved counterexample to 'resolve types the whole query'.)", "quantifier": "every SELECT query and every schema", "why_tests_cant": "unboundedly many queries, schemas and nestings; the test-suite resolves a few fixed expressions and no queries with WITH or joins over a schema", "anchors": ["treeno/relation.py: SelectQuery.resolve"]}
{"id": "C45", "title": "Sub-queries are closed", "statement": "Resolving an aliased sub-query, a set operation of queries or a TABLE query gives the same result under every surrounding schema; the WITH names of a query have no influence on the columns of a sub-query in its FROM clause.  As a rule for SQL this is wrong (a WITH name is visible in a sub-query), and it is not kept in a sampled sub-query, which does see the names (proved counterexamples).", "quantifier": "every query and every pair of schemas", "why_tests_cant": "unboundedly many queries, schemas and nestings; the test-suite resolves a few fixed expressions and no queries with WITH or joins over a schema", "anchors": ["treeno/relation.py: maybe_prune_schema, AliasedRelation.resolve, SetQuery.resolve, TableQuery.resolve, SelectQuery.resolve, TableSample.resolve"]}
{"id": "C46", "title": "Column types flow through WITH", "statement": "In WITH c (cols) AS (q) SELECT items FROM c the items are resolved against exactly the columns of q, renamed by cols; a column named in the SELECT list gets the type it has in q.  Fails for a second WITH query that reads the first (the documented example of _resolve_with), for columns of the same name and type (they collapse), and a qualified table s.c is taken for c (proved counterexamples).", "quantifier": "every query, column list and surrounding schema with distinct column names", "why_tests_cant": "unboundedly many queries, schemas and nestings; the test-suite resolves a few fixed expressions and no queries with WITH or joins over a schema", "anchors": ["treeno/relation.py: Query._resolve_with, SelectQuery.resolve, Table.resolve, AliasedRelation.resolve"]}
{"id": "C47", "title": "Columns of a join tree", "statement": "Resolving a join tree over tables and aliased tables against a catalogue schema gives the concatenation of the columns of its tables from left to right, nothing lost, doubled or reordered, known by exactly the names of the tables and aliases, at any depth and association, provided these names are distinct and no alias is the name of a table.  Without this, columns are lost or mixed up (proved counterexamples: t JOIN t; t a JOIN a).", "quantifier": "every join tree and every catalogue", "why_tests_cant": "unboundedly many queries, schemas and nestings; the test-suite resolves a few fixed expressions and no queries with WITH or joins over a schema", "anchors": ["treeno/relation.py: Join.resolve, Table.resolve, AliasedRelation.resolve, Schema.merge"]}
{"id": "C48", "title": "Columns of UNNEST", "statement": "Resolving UNNEST gives one unnamed column per array with the element type of the resolved array (UNKNOWN if it is no array).  WITH ORDINALITY should add a column and never does.", "quantifier": "every list of arrays and every schema", "why_tests_cant": "unboundedly many queries, schemas and nestings; the test-suite resolves a few fixed expressions and no queries with WITH or joins over a schema", "anchors": ["treeno/relation.py: Unnest.resolve, Unnest._compute_data_type"]}
{"id": "C49", "title": "Columns of an aliased relation", "statement": "An aliased relation has the columns of the relation in order and with their types, renamed by its column names if it has any, all belonging to the alias.  This succeeds exactly if there are no column names or at least as many as columns; with fewer it raises IndexError, and surplus names are silently ignored.", "quantifier": "every relation, alias and column list", "why_tests_cant": "unboundedly many queries, schemas and nestings; the test-suite resolves a few fixed expressions and no queries with WITH or joins over a schema", "anchors": ["treeno/relation.py: AliasedRelation.resolve"]}
{"id": "C50", "title": "VALUES cannot be resolved", "statement": "A query that reads VALUES anywhere in its FROM clause, its WITH clause, or as an operand of a set operation should be resolved; it always raises.", "quantifier": "every relation with a VALUES query in a place that resolve visits, every schema", "why_tests_cant": "unboundedly many queries, schemas and nestings; the test-suite resolves a few fixed expressions and no queries with WITH or joins over a schema", "anchors": ["treeno/relation.py: ValuesQuery.resolve"]}
{"id": "C51", "title": "Reading set operations without parentheses", "statement": "query_from_sql of queries joined by UNION, EXCEPT and INTERSECT without parentheses gives the tree in which INTERSECT binds more tightly than the other two and everything else groups to the left, each node with DISTINCT unless ALL was written, and with ORDER BY, OFFSET and LIMIT of the text on the outermost operation.  Every such text has exactly this reading; INTERSECT ALL and EXCEPT ALL raise AssertionError.  A tree grouped otherwise has no text without parentheses (proved counterexample).", "quantifier": "every sequence of printable SELECT, TABLE and VALUES queries, every choice of operators and quantifiers, every ordering and counts, every layout of the parts", "why_tests_cant": "unboundedly many chains of operators; the test-suite reads single operations between two fixed queries", "anchors": ["treeno/builder/convert.py: visitSetOperation, visitQueryNoWith", "treeno/relation.py: SetQuery, UnionQuery, IntersectQuery, ExceptQuery"]}
{"id": "C37", "title": "Conditions that are read as nothing", "statement": "What is written in a query should be in the object that is read, or reading should raise.  It is not so: EXISTS (q) is read as None, so WHERE EXISTS (q) and HAVING EXISTS (q) are silently dropped and the object is that of the query without the clause; so is FROM ((q)), and (q) as a whole is read as None.  NOT EXISTS (q) raises TypeError, and EXISTS combined with AND or OR raises ValueError.", "quantifier": "every printable SELECT query, sub-query q, ordering and counts, and every layout", "why_tests_cant": "the loss is silent and holds for all queries, so no finite set of tests shows its extent; the test-suite has no EXISTS", "anchors": ["treeno/builder/convert.py: SqlBaseVisitor without visitExists and visitSubquery, visitQuerySpecification", "treeno/relation.py: SelectQuery"]}
{"id": "C52", "title": "treeno format keeps the meaning and is stable", "statement": "The text written by `treeno format` for a query, expression or type is read back as the object that was read from the given text, and formatting it again gives the same text.  For a query it raises exactly when resolving the query against the empty schema raises, which does not happen for a SELECT over tables and joins of tables without sub-queries in its list.  Outside the fragment it is false: WHERE EXISTS (q) is dropped from the text, and VALUES 1, 2 raises TypeError (proved counterexamples).", "quantifier": "every text, in any layout, that is read as a printable query or expression, or as a data type within the limits of Trino", "why_tests_cant": "unboundedly many texts and layouts; the test-suite never runs the commands", "anchors": ["treeno/cli.py: get_sql_object, format", "treeno/relation.py: resolve methods", "treeno/base.py: Sql.sql"]}
{"id": "C53", "title": "Resolving is idempotent and changes no text", "statement": "Resolving a query that has been resolved against the same schema gives the same schema and leaves the query as it is; the text of a query in every layout is not changed by resolving it.  Hence `treeno schema`, which resolves twice, writes one line for each item of a SELECT, with the name of the item and the type found by the first resolution.  A column without a name is written as None and cannot be told from a column of that name (proved counterexample).", "quantifier": "every relation, every schema and every layout for which the first resolution succeeds", "why_tests_cant": "resolve mutates the object it is called on, with nesting of any depth; the test-suite resolves each query once", "anchors": ["treeno/relation.py: resolve methods", "treeno/datatypes/resolve.py: resolve_fields", "treeno/cli.py: schema"]}
{"id": "C54", "title": "What a visitor sees", "statement": "A visitor that calls the visit method of every object it is given sees every object of a tree at most once and nothing else.  It sees all of them, each before its parts and in the order of the text, in trees without SELECT, lambda parameters, QDIGEST_AGG, LISTAGG, two-argument statistics, keyword arguments of aggregates, WITH and ORDER BY of queries, and joins without criterion.  It raises AttributeError, and nothing else, exactly when it reaches None, a lambda parameter, a SELECT query, QDIGEST_AGG or a join without criterion.  FILTER, OVER and ORDER BY of aggregate functions are never seen, and CORR and its like hand on their arguments in reverse (proved counterexamples to completeness and order).", "quantifier": "every tree of values and relations", "why_tests_cant": "trees of any shape and depth; the test-suite never uses a visitor", "anchors": ["treeno/visitor.py: TreenoVisitor.visit", "treeno/expression.py, treeno/relation.py, treeno/window.py, treeno/groupby.py, treeno/orderby.py: visit methods", "treeno/functions/*.py: visit methods"]}
{"id": "C55", "title": "What reading does not depend on", "statement": "Two texts that have the same tokens up to the case of words that cannot be names (except DISTINCT) and up to double quotes around names are read alike by query_from_sql, expression_from_sql and type_from_sql: the same object or the same exception.  White space (blanks, tabs, line ends), line comments up to a line feed, a carriage return or both, and bracketed comments anywhere between tokens do not matter; a text written from given tokens with any such gaps, and with no gap where the longest-match rule allows it, has just these tokens.  Hence every way of writing down the tokens of a printable query or expression, with unquoted names, lower-case words, other layout and comments, is read as that object.  The case of DISTINCT, ALL, BERNOULLI and SYSTEM matters (lower case raises KeyError or AssertionError), and a word in mixed case is no keyword (proved counterexamples).", "quantifier": "every pair of texts whose tokens agree up to spelling; every token sequence and every placing of gaps", "why_tests_cant": "texts of any length and nesting through the whole grammar; the test-suite has a few texts in a few layouts", "anchors": ["treeno/grammar/SqlBase.g4: keywords 860-1128, nonReserved 828-856, lexer rules 1130-1219", "treeno/builder/convert.py: query_from_sql, expression_from_sql, type_from_sql, visitQuotedIdentifier, visitUnquotedIdentifier, visitSetQuantifier"]}
{"id": "C56", "title": "What exactly the structural comparison looks at", "statement": "Two trees compare equal with Sql.equals iff their roots have the same class and they agree below the root; two built objects agree below the root iff they have the same data type and are of the same kind with the same names, flags, LIMIT / OFFSET, quantifiers, order directions, frames, join types and numbers of the same value, and with parts that agree pairwise (named windows in any order). Not looked at are: the operator of a unary, binary or set operation, CAST or TRY_CAST, CUBE, ROLLUP or a plain set, and the name of a function among those with the same parameter names. The only different kinds that can agree are a unary operation with a function of one parameter 'value', ARRAY / ROW / CONCAT / COALESCE with one another, and CAST with TRY.", "quantifier": "every pair of built trees whose windows have different names", "why_tests_cant": "The claim is an equivalence over all pairs of trees of unbounded size; tests compare a few queries with themselves.", "anchors": ["treeno/base.py: Sql.equals"]}
{"id": "C57", "title": "The tree that the tree command shows says what was read", "statement": "The tree that treeify makes from an object determines the object: two built objects none of whose parts is None, and whose literals have a data type that fits their value, have the same tree only if they are the same object, with the same classes, names, numbers (1.5 and 1.50 differ), flags, quantifiers, order directions, frames and data types. So two expressions for which the tree command shows the same tree were read as the same expression. The tree of every part of a built object, other than None, is inside its tree. For every object, built or not, the tree has its class as label and shows, in their order, exactly those attributes that are not hidden (leading underscore), None, an empty list or the default member of its enumeration (SetQuantifier.ALL, OrderType.ASC, NullOrder.LAST, NullTreatment.RESPECT, FrameType.RANGE); texts, numbers, types and members of enumerations are shown as their str, lists and dicts as trees of their elements. The tree command shows treeify of the expression that was read, raises AttributeError if it was read as None, and raises AttributeError for every type that the format command can write. Without the two conditions different objects can have the same tree.", "quantifier": "every pair of built objects of any size; every text", "why_tests_cant": "Injectivity is a claim about all pairs of trees; default values that are left out could hide a difference in any one of the attributes of 130 classes.", "anchors": ["treeno/cli.py: treeify, _should_skip, tree", "treeno/util.py: children"]}
{"id": "C58", "title": "Whatever is read is well formed, at every depth", "statement": "Take any text that expression_from_sql or query_from_sql accepts and any part, at any depth, of the object it gives. The part is one that its constructor accepts. If it is a lambda variable, an enclosing lambda has that parameter, and no unqualified column has the name of a parameter of an enclosing lambda. Integer literals have the inferred integer type, string literals VARCHAR of their length, floats the type DOUBLE, and there are floats only if the text has numbers with an exponent. Columns have unknown type. Quotes inside names occur only in pairs and never at an end, and so do quotes inside strings if the text has no unicode strings (with them they need not). The type of a cast can be written and read back. A join without criterion is either CROSS or NATURAL and not both; a table without schema has no catalog; IGNORE NULLS occurs only with a window; functions are registered ones or have their own notation; named windows have different names; LIMIT and OFFSET are not negative. An expression is a value (or None, for what is not converted) and a query a query (or None). Every type that type_from_sql accepts is one the constructors build, and the format command on it gives a text that it leaves unchanged.", "quantifier": "every text, any nesting depth; every part of the object read", "why_tests_cant": "The invariant is about all texts of an infinite language and about all parts of the trees; a violation can depend on a combination of nested constructs (a lambda inside a window inside a subquery).", "anchors": ["treeno/builder/convert.py: query_from_sql, expression_from_sql, type_from_sql and all visitors", "treeno/expression.py: Lambda.from_generic_expr", "treeno/cli.py: format"]}
{"id": "C59", "title": "The grammar, written as rules, is what is read", "statement": "Write down the language as rules, one per alternative of the grammar that the converter supports: which tokens make up an expression, a clause, a relation or a query, and which object the converter builds from its parts (operators and their levels, predicates, ||, literals, intervals, type constructors, columns, rows, arrays, sub-queries as operands, subscripts, lambdas, CASE, casts, NORMALIZE, current date and time, calls with DISTINCT / ALL, ORDER BY, FILTER, null treatment and OVER, LISTAGG, windows and frames, select items and aliases with or without AS, grouping sets, ROLLUP, CUBE, tables, sub-queries, LATERAL, UNNEST WITH ORDINALITY, aliases with columns, TABLESAMPLE, all joins, VALUES, TABLE, set operations with their precedence, WITH with columns, ORDER BY, OFFSET, LIMIT, FETCH). Whatever tokens the rules derive for an object, and however these are written (white space, comments, case of reserved words, quotes around names), expression_from_sql or query_from_sql returns exactly that object. So no text of the language has two meanings.", "quantifier": "every derivation, any nesting depth and any length of lists; every text of the derived tokens; every import state of the function modules", "why_tests_cant": "The rules derive infinitely many texts, most of which the printer never produces, so round trips do not reach them; a wrong operand order or a lost part shows only in one alternative.", "anchors": ["treeno/builder/convert.py: expression_from_sql, query_from_sql and the visitors", "treeno/grammar/SqlBase.g4: expression, query and the rules below them"]}
{"id": "C60", "title": "Texts that are read as nothing", "statement": "Some alternatives of the grammar have no visitor, so their result is that of their last child: None. These are EXISTS (q), POSITION (a IN b), TRIM in all its forms, SUBSTRING (a FROM b [FOR c]), EXTRACT (f FROM a), GROUPING (...), binary literals, a query in two or more pairs of parentheses, and any of these in parentheses; inside them every value may be anything. expression_from_sql returns None for all of them, and query_from_sql returns None for a query in parentheses. No such text is an expression (or query) by another rule. Where they are used as WHERE, HAVING or FILTER condition, as operand of CASE, as ESCAPE, or as the query in FROM, the clause disappears: the object is the one of the text without the clause. Compared with a value they raise ValueError.", "quantifier": "every derivation, any nesting depth; every text of the derived tokens (white space, comments, case of reserved words, quotes around names); every import state of the function modules", "why_tests_cant": "The loss is silent: a query with a condition is read as the query without it, and no text that the printer writes contains such a form.", "anchors": ["treeno/builder/convert.py: SqlBaseVisitor without visitExists, visitPosition, visitTrim, visitSubstring, visitExtract, visitGroupingOperation, visitBinaryLiteral, visitSubquery", "treeno/builder/convert.py: visitQuerySpecification, visitFilter_, visitLike, visitSimpleCase", "treeno/grammar/SqlBase.g4: primaryExpression, queryPrimary"]}
{"id": "C61", "title": "A query that serves as an operand is printed without parentheses", "statement": "expression_from_sql accepts sub-queries in parentheses as operands, but the printer never writes those parentheses. No text whose first word is SELECT, WITH, TABLE or VALUES is an expression: expression_from_sql raises the syntax error on it. Hence the text of every expression whose first operand, however deep, is a query is rejected, and so is the text of a binary operation (all fourteen operators) with a query on its right, of CAST and TRY_CAST of a query, of a call of a named function whose first argument is a query, and query_from_sql rejects the text of a SELECT whose first item is a query. Other texts are accepted but mean something else: v IN (q, x, y) with q a bare SELECT is read as v IN (q') where x and y are further columns of q'; a value list holding one query is read as IN (query); a row (q, x) is read as the query with one more column.", "quantifier": "every expression, query, operator, function name, type and option of the printer; every nesting depth of the leading operand; every text that starts with a query word", "why_tests_cant": "The reading side accepts sub-queries as operands, so an object can be built from a valid text whose own text is invalid or differs in meaning; no test in the repository prints a parsed scalar sub-query.", "anchors": ["treeno/expression.py: pemdas_str, binary_op printing, InList.sql, RowConstructor.sql, Cast.sql", "treeno/relation.py: SelectQuery.sql", "treeno/builder/convert.py: visitSubqueryExpression", "treeno/grammar/SqlBase.g4: primaryExpression #subqueryExpression, predicate #inList, #inSubquery"]}
{"id": "C62", "title": "Construction as typing rules", "statement": "Which objects can be built, and the data_type each of them gets, follows a system of rules with one rule per class that refers to nothing but the types of the parts: an object is accepted by its constructor with data_type t exactly if the rules derive t for it. Every derivation is unique, so an object has at most one type. Everything that query_from_sql and expression_from_sql return, and every part of it, is derived. In particular a Join is accepted exactly if both sides are, its ON condition is, and it has a criterion only when it is neither CROSS nor NATURAL; INTERSECT and EXCEPT exactly if both sides are and DISTINCT is kept; a SELECT with one item has the type of the item and with several a ROW of theirs. A UNION of queries with different numbers of columns is accepted, and its row type is cut to the shorter one.", "quantifier": "every object of every class of the model, every data type; every text that is read", "why_tests_cant": "The checks are spread over the __attrs_post_init__ methods of some seventy classes and over the conversions; a test builds single objects.", "anchors": ["treeno/expression.py: __attrs_post_init__ of every class", "treeno/relation.py: Join, SelectQuery, SetQuery, ValuesQuery, TableQuery, Unnest __attrs_post_init__", "treeno/groupby.py: GroupingSet, GroupingSetList, Cube, Rollup", "treeno/datatypes/conversions.py: common_supertype, get_arithmetic_type"]}
{"id": "C63", "title": "Nothing but phrases of the language is accepted", "statement": "A system of rules says which sequences of tokens are expressions, queries and types, and which object each of them means; the rules are stated one per form of the grammar, with the binding strength of operators, the spelling of words left open, and the defaults and losses of the visitors (a quantifier in a call is not kept, FETCH FIRST is not kept, AT TIME ZONE INTERVAL means the interval, forms without a visitor mean None). Whatever expression_from_sql returns is a meaning of the whole text, whatever query_from_sql returns is a meaning of an initial part of the text, and whatever type_from_sql returns is made from a type phrase that is the whole text. Hence an accepted expression or type has its parentheses and brackets paired and nested, an accepted query starts with WITH, SELECT, TABLE, VALUES or an opening parenthesis, and everything derived by the rules of C59 is derived here.", "quantifier": "every text; every import state of the function modules; any nesting depth", "why_tests_cant": "Tests show that some texts are accepted and some are rejected; they cannot show that no text outside the language is accepted or given a meaning that its form does not have.", "anchors": ["treeno/convert.py: expression_from_sql", "treeno/convert.py: query_from_sql", "treeno/convert.py: type_from_sql", "treeno/convert.py: RelationVisitor", "treeno/convert.py: ExpressionVisitor", "treeno/convert.py: TypeVisitor", "treeno/grammar/SqlBase.g4"]}
{"id": "C64", "title": "Unicode strings: what they stand for and what raises", "statement": "A unicode string U&'...' in which the characters are written as themselves or as the escape character followed by four hexadecimal digits (codes up to 00FF, digits in either case) is read as the literal of the text it spells, with the type VARCHAR of its length; the escape character is the backslash or, with UESCAPE 'c', any character c that is no quote and no hexadecimal digit. Quotes, backslashes and the escape character itself have to be written as codes. So every text is the value of some literal. An escape character that is followed by anything but a hexadecimal digit raises UnicodeDecodeError, whatever comes after it: the six digit codes \\+hhhhhh and the doubled escape character of SQL can not be used. With another escape character backslashes are still interpreted (\\n is a newline), doubled quotes stay doubled, and a literal with a quote is printed as a text that can not be read.", "quantifier": "every list of characters and spellings, every escape character, every environment; for the errors every text before and after", "why_tests_cant": "The value depends on every character of an unbounded text and on the escape character; the interaction of two decoders (SQL codes and Python's unicode_escape) shows only for particular characters.", "anchors": ["treeno/builder/convert.py: visitUnicodeStringLiteral (738-755)", "treeno/grammar/SqlBase.g4: string, UNICODE_STRING"]}
{"id": "C65", "title": "Doubles are correctly rounded and never survive printing", "statement": "A number with an exponent (12.50E-3, 7E22, .5E+1), alone or after a minus sign, is read as a literal of type DOUBLE whose value is the binary64 number nearest to the number written, of two equally near ones the even one, and infinity exactly from 2^1024 - 2^970 on. Printing such a literal gives the text of the Python float, and reading this text never gives a DOUBLE again: the forms with an exponent (7e+22, 1.5e-07) can not be read at all, the others are read as DECIMAL literals, and infinity as the column inf.", "quantifier": "every DOUBLE_VALUE of the grammar, every environment, every print option", "why_tests_cant": "Rounding differs from a naive conversion only for rare digit strings (ties, subnormal and very large numbers), and the claim about printing ranges over all doubles.", "anchors": ["treeno/builder/convert.py: visitDoubleLiteral (723-729)", "treeno/expression.py: Literal.sql (264-277)", "treeno/grammar/SqlBase.g4: DOUBLE_VALUE, EXPONENT"]}
{"id": "C66", "title": "JSON functions and table functions: which are accepted, and that they vanish", "statement": "The text between the parentheses of JSON_EXISTS, JSON_VALUE, JSON_QUERY, JSON_OBJECT and JSON_ARRAY, and of TABLE(...) in FROM, is accepted only if it is in the language that SqlBase.g4 gives for it (stated as regular languages over expressions, types, names and queries). A call is read as None whatever is written in it: expression_from_sql returns None for it, a WHERE or HAVING that consists of it disappears, and a query FROM TABLE(f(...)) becomes a query without FROM, so that queries over different table functions become one object.", "quantifier": "for every operand, path, tail of words, list of members and of arguments, and every layout of the text", "why_tests_cant": "The loss is silent: no exception and no message, and the printed query is valid SQL; the space of clauses (1125 tails for JSON_QUERY alone, around any expression) cannot be enumerated.", "anchors": ["treeno/grammar/SqlBase.g4:408-444", "treeno/grammar/SqlBase.g4:529-606", "treeno/builder/convert.py:1286-1296", "treeno/builder/convert.py:99-113"]}
{"id": "C67", "title": "The printed expression has the fewest parentheses", "statement": "Number of opening parentheses of a text: outside strings, quoted names and comments. For every expression built from columns, literals, the operators, BETWEEN, IN over a list, LIKE, rows, arrays, subscripts, CASE, CAST to a type without parameters and calls with arguments (no concatenation) that can be printed and read back: str(e), in either layout, is read back as e, and no text whatever that expression_from_sql reads as e has fewer opening parentheses. The parentheses of the printed text are exactly those that belong to a form of the language plus one for each operand whose grammar rule is looser than its place. For arithmetic over columns and integers, and conditions over it, this holds for trees of any shape. It fails for concatenation: (CONCAT(a, b)) * c is printed, and CONCAT(a, b) * c is read as the same object.", "quantifier": "all expressions of the fragment, all other texts, both layouts, all sets of imported function modules", "why_tests_cant": "The minimum is over all texts that are read as the object; a test can only compare with the texts somebody thought of.", "anchors": ["treeno/expression.py:432-466", "treeno/expression.py:1050-1073", "treeno/functions/common.py:106-108", "treeno/grammar/SqlBase.g4:448-511"]}
{"id": "C68", "title": "Expressions built with Python operators", "statement": "Applied to a value object a, each of == != > >= < <= + - * / % & | builds one object whose text is the text of a, the sign of SQL (= <> > >= < <= + - * / % AND OR), and the text of the other operand as a literal or object, either side possibly in parentheses. a ** b is POWER(a,b); -a, +a and ~a are -, + and NOT before the text of a, possibly in parentheses, except that ~ of a condition with a negated form of its own prints that form, and ~(a == b) has the text of a != b and the other way round. Comparisons, & and | succeed for every operand that is a value or a boolean, number or text; anything else raises (None ValueError, a list AssertionError, an object that is no value NotImplementedError). With a Python literal on the left, arithmetic, & and | raise TypeError, and a comparison is the converse one of the object with the literal. Arithmetic over columns and integers written with operators (no integer literal as a left operand) builds exactly the tree of the formula, and comparisons joined by & and | the same conditions with literals moved to the right; both are printed and read back as the same object. Because objects count as true: x in [y, ...] is True whatever y is, not x is False, x and y is y, x or y is x, and of a chain a < x < c only x < c is kept.", "quantifier": "all operators, all operands (objects, literals, lists, other), all operator trees of the fragment, both layouts, all sets of imported function modules", "why_tests_cant": "Tests of the operators use a few pairs of operands; trees of any shape, literals on either side and the operands that must be refused are infinitely many.", "anchors": ["treeno/expression.py:100-151", "treeno/expression.py:414-425", "treeno/expression.py:470-482", "treeno/functions/math.py:12-19", "treeno/datatypes/inference.py:20-39"]}
{"id": "C69", "title": "What == between relations compares", "statement": "For relations (tables, aliased relations, joins, UNNEST, LATERAL, samples and queries, all the way down): a == b counts as true exactly when both are queries (of whatever content), or they are of the same class with the same names, aliases, column aliases, join type, NATURAL and ordinality, the same names in USING or any two ON conditions, the same number of arrays in UNNEST, any percentages, and relations inside that are again so related. Where a query meets a relation that is none, NotImplementedError is raised, in either order and also inside an aliased relation. It is reflexive and symmetric. a.equals(b) implies a == b; the converse fails: two aliased sub-queries of the same alias are == whatever they select.", "quantifier": "all pairs of relations of any depth", "why_tests_cant": "The pairs that are wrongly equal are infinitely many, and the comparison goes through attribute lists written by a decorator; only an exact description of the relation says there are no others.", "anchors": ["treeno/relation.py:184-185", "treeno/relation.py:544-560", "treeno/relation.py:718-735", "treeno/relation.py:805-925", "treeno/relation.py:958-975", "treeno/relation.py:1021-1060", "treeno/expression.py:129-130", "treeno/base.py:129-146"]}
{"id": "C70", "title": "Nothing is invented: names, integers and texts of an object come from the text, each at most as often", "statement": "For every text that expression_from_sql or query_from_sql accepts, every name (column, qualifier, alias, table, schema, catalog, column alias, USING column, lambda parameter, named window), every integer (literals, LIMIT, OFFSET, in absolute value) and every text literal occurs in the returned object at most as often as tokens of the SQL text spell it. In particular each such name is a name token of the text, each integer literal has an integer token with that value, and each text literal a string token with that content (or a U& string token). The reverse fails: clauses without a visitor vanish from the object.", "quantifier": "all texts, all environments, all names, integers and texts; expressions and queries of any size and nesting", "why_tests_cant": "A converter that repeats or invents a name only for one combination of clauses, or at one depth, passes any finite set of queries; counting over all accepted texts leaves no room.", "anchors": ["treeno/builder/convert.py:155-161", "treeno/builder/convert.py:611-620", "treeno/builder/convert.py:686-755", "treeno/builder/convert.py:945-1016", "treeno/expression.py:372-400", "treeno/grammar/SqlBase.g4:448-528", "treeno/grammar/SqlBase.g4:814-820"]}
{"id": "C71", "title": "What a visitor sees that does not descend everywhere", "statement": "Take any subclass of TreenoVisitor whose visit_X methods note the object and, for some objects only, call its visit method. Visiting an object succeeds exactly when every object handed to the visitor has a visit_X method and every visit method that is called can be carried out; then the objects seen are exactly those handed on through the objects at which it descends, each before the ones it hands on. Only AttributeError is ever raised. A visitor that descends at fewer objects raises in no more cases and sees a subsequence. TreenoVisitor itself sees the object only and fails just for None and lambda variables. If the visitor stops at all the objects that cannot be traversed (for instance at every SelectQuery), it sees everything outside of them in the order of the text. With descent everywhere this is the traversal of C54.", "quantifier": "all visitors given by the objects at which they descend, all objects", "why_tests_cant": "The choice of where to descend is an arbitrary predicate; a missed or repeated child shows only for the combination of class, depth and choice that reaches it.", "anchors": ["treeno/visitor.py:180-182", "treeno/visitor.py:184-658", "treeno/expression.py:228-1042", "treeno/relation.py:339-1092", "treeno/functions/aggregate.py:106-108"]}
{"id": "C72", "title": "What a table remembers of the schemas it was resolved with", "statement": "Take any program that makes tables, some of them with a Schema object as column_schema, and calls resolve on them in any order. If the schema passed to table.resolve has the table's name among its relation ids, the answer is exactly the columns of that schema whose source has this name, with this name as the only id. Otherwise the answer is the one for the last schema with its name that this table object was resolved with, if there is one; otherwise no columns and the table's own name, or the columns of the Schema object it was made with. In the last case the ids are those of that object and the names of all tables made with it, earlier or later. Calls on other tables never matter. So the answer depends on the history and not on the schema alone.", "quantifier": "all sequences of table constructions and resolve calls, all schemas, all names", "why_tests_cant": "The state is hidden in an attribute and shared between tables through a mutable set; tests resolve a fresh table once.", "anchors": ["treeno/relation.py:544-603", "treeno/relation.py:573-582", "treeno/relation.py:587-600", "treeno/relation.py:135-155"]}
{"id": "C73", "title": "Printing and formatting write no name that was not there", "statement": "The SQL text printed for an object (whose text can be split into tokens again) has a name between double quotation marks at most as often as the object and its parts have the name. So the text that the format command writes for a query or an expression has each double-quoted name at most as often as the text it was given has it, as a quoted or an unquoted name or a keyword used as one.", "quantifier": "all objects whose text has its tokens (lexable), all print options; all texts read as a query or an expression with such an object; all names", "why_tests_cant": "Every printer of every class has to be right, for any nesting; a test compares a few texts.", "anchors": ["treeno/util.py:24-43", "treeno/relation.py:740-760", "treeno/cli.py:44-48", "treeno/expression.py"]}
{"id": "C74", "title": "Printing loses no name, integer or text", "statement": "Every name, integer and text that an object has anywhere is in its SQL text, at least as often, unless it is one of these: quotation marks at the ends of a name or text, an empty qualifier or parent window, OFFSET 0, LIMIT 0, anything at the end of a set operation or in its WITH, or arguments of a function that is written without parentheses. Each of these exceptions does lose something. This needs no round trip: it holds also for objects whose text is read differently or not at all.", "quantifier": "all objects whose text has its tokens (lexable) and that have none of the exceptions (shown), all print options, all names, integers and texts", "why_tests_cant": "All printers at any nesting; a test compares a few texts.", "anchors": ["treeno/relation.py:198-252", "treeno/relation.py:366-420", "treeno/relation.py:495-530", "treeno/expression.py", "treeno/util.py:10-43", "treeno/window.py"]}
{"id": "C75", "title": "Lists are laid out in as few lines as possible", "statement": "In pretty mode JoinPrinter.to_string breaks a list into as few lines as possible: whenever the items (without line breaks, joined by a delimiter of one character) can be broken in front of some items so that no line is longer than max_length - spaces, the result has no more lines than that. If every item with its delimiter fits on a line, the result itself is such a layout. The width is that of the list only: beside its keyword a list can make a line longer than 80 characters.", "quantifier": "all lists of items without line breaks, all delimiters of one character, all widths and indentations, all ways of breaking", "why_tests_cant": "It compares the result with every other layout of the list.", "anchors": ["treeno/printer.py:30-70"]}
{"id": "C76", "title": "An object has no more parts than the text has tokens", "statement": "When expression_from_sql or query_from_sql returns an object, the number of objects in it (columns, literals, operators, calls, relations, queries; the object itself included) is at most the number of tokens of the text, and a way down from an object to its parts takes fewer steps than there are tokens. There are also no more objects than characters. Nothing that is read is duplicated: not the body of a lambda, a named window, a common table expression or the operand of a negated predicate.", "quantifier": "for every text and every set of loaded function modules", "why_tests_cant": "It bounds the size of the result for texts of any length and nesting; a construct that copies its operand shows only when nested.", "anchors": ["treeno/builder/convert.py:149-1290", "treeno/expression.py:177-1076", "treeno/relation.py:185-1127"]}
{"id": "C77", "title": "The text has a token for every part of the object", "statement": "The text that to_sql writes for an object, in default or pretty mode, has at least as many tokens as there are objects in it, so no operator, literal, call, relation or clause is left out; so has what treeno format writes. Exceptions, each shown to be one: NOT over = or <> (the NOT goes into the operator), WITH and ORDER BY of a set operation, and arguments of a function that is written without parentheses.", "quantifier": "for every printable object, every mode and every set of loaded function modules", "why_tests_cant": "It counts over objects of any size and nesting, with every clause present or absent; with C74 it covers what has no name or value of its own.", "anchors": ["treeno/expression.py:432-466", "treeno/expression.py:576-597", "treeno/relation.py:311-321", "treeno/relation.py:495-560"]}
{"id": "C78", "title": "What reading a type can raise", "statement": "type_from_sql returns a type, or the text is a syntax error, or it raises AssertionError or NotImplementedError. It raises nothing else: no KeyError, TypeError or IndexError from a missing, superfluous or wrong parameter. Parsing a type always comes to an end with a type or a syntax error.", "quantifier": "for every text", "why_tests_cant": "It excludes exceptions for all texts, at any nesting of types.", "anchors": ["treeno/builder/convert.py:112-113", "treeno/builder/convert.py:492-608", "treeno/datatypes/types.py:78-110", "treeno/datatypes/types.py:181-304"]}
{"id": "C79", "title": "What the computation of result types can raise", "statement": "common_supertype and get_arithmetic_type raise only AssertionError or TypeError, and KeyError only if one of the two types has a TIME or TIMESTAMP without precision in it. The types of VALUES, of set operations, of COALESCE, IF and CONCAT raise only these three.", "quantifier": "for all pairs and lists of data types, nested to any depth", "why_tests_cant": "It excludes exceptions for all pairs of nested types, and says which pairs can give the KeyError.", "anchors": ["treeno/datatypes/conversions.py:62-316", "treeno/relation.py:280-311", "treeno/relation.py:691-696", "treeno/functions/conditional.py:21-54", "treeno/functions/common.py:26-90"]}
