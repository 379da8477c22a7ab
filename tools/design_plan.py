# plan lines for DESIGN.md (property -> model, method, expectation)
PLAN = {
"C01":"Name*.v. mergePath/normalizePath/getMaxNum over lists of strings. Proof by induction over the base path; idempotence needs the reachable-state invariant (dot-free components).",
"C02":"Name*.v. Same model; induction over the base path with the accumulated length.",
"C03":"Name*.v. State machine over setMaxNum/setPath/addPath, invariant by induction over the call list.",
"C04":"Name*.v. Partial: holds when t differs from project and dataset; refuted otherwise (witness).",
"C05":"Name*.v. formatPath is join by '_': refuted by a_b.c vs a.b_c; partial: injective when no component contains '_'.",
"C06":"Catalog*.v. tables/tableMap/functions/funcMap as in catalog.go; refinement to an association map over histories without replacement; invariant list/map agreement for all histories.",
"C07":"Catalog*.v. Refuted: getFunctions/SimpleCatalog keep the old spec and a later DROP resurrects it in the map.  Partial: the map lookup right after replacement is the new one.",
"C08":"Tree*.v. SimpleCatalog as a finite tree, addTableSpecRecursive transcribed; induction on path and on creation list.  The unequal-length case is refuted.",
"C09":"Persist*.v. zetasqlite_catalog as a map with upsert semantics, Sync replay; refinement theorem under kind-disjoint names; refuted when a function and a table share a name.",
"C10":"Persist*.v. Two-process schedule with logical clock; proved for atomic stamp+commit, refuted for the interleaved schedule; deletions never propagate (refuted).",
"C11":"Script*.v. DropStmtAction.exec: refuted.",
"C12":"Script*.v. ExecContext/QueryContext over abstract actions with effects; induction over the script.",
"C13":"Script*.v. Exec with SQLite state + catalog; partial (temp names disjoint from existing, cleanup statements succeed); refutations where it fails.",
"C14":"Script*.v. Success path proved through Rows.Close; error path refuted.",
"C15":"Script*.v. Refuted: CREATE TEMP TABLE over an existing table drops it in Cleanup.  Partial under name-disjointness.",
"C16":"Changed*.v. addTable/deleteTable folds; invariant over op lists.",
"C17":"Tx*.v. state machine of connection tx pointer; invariant over histories.",
"C18":"Tx*.v. Refuted (in-memory catalog is not rolled back); partial when the body has no DDL.",
"C19":"Script*.v. Refuted for CREATE OR REPLACE; proved for other kinds.",
"C20":"Dsn*.v. critical section as atomic step; invariant over interleavings.",
"C21":"Param*.v. getParamsFromNode/getArgsFromParams; induction over lists.",
"C22":"Param*.v. Refuted for two DML statements; proved for one statement and for scripts where only the last statement has parameters.",
"C23":"Udf*.v. strings.Replace transcribed; refuted by prefix names; partial for non-capturing names and argument texts.",
"C24":"Merge*.v. relational model of the generated statements.",
"C25":"Merge*.v. refuted: merged table left behind.",
"C26":"Codec*.v. EncodeValue/DecodeValue with JSON as an abstract tree (numbers decoded as float64 inside arrays): scalars proved, nested ints partial (|n| <= 2^53) and refuted beyond.",
"C27":"Codec*.v. base64 alphabet and %q.",
"C28":"Packed*.v. bit-field extraction by Z.testbit/shift lemmas.",
"C29":"Packed*.v. offset as parameter; refuted for negative offsets, proved for 0 <= offset.",
"C30":"Tstext*.v. decimal printing/parsing; round trip proved, decimal reading refuted.",
"C31":"Int*.v. wrap explicit; partial (in range), refuted (overflow).",
"C32":"Compare*.v. scalar comparisons; total order laws.",
"C33":"Compare*.v. array comparison transcribed.",
"C34":"Numeric*.v. heap of rationals, aliasing explicit; refuted.",
"C35":"Numeric*.v. refuted/partial on integers.",
"C36":"Logic*.v.", "C37":"Logic*.v.", "C38":"Logic*.v.", "C39":"Logic*.v.",
"C40":"Register*.v. registration as last-write-wins over a permutation of the function list; refuted, partial for names without collision.",
"C41":"Like*.v.", "C42":"Bits*.v.", "C43":"MathFn*.v.", "C44":"MathFn*.v.", "C45":"ArrayFn*.v.", "C46":"ArrayFn*.v.", "C47":"ArrayFn*.v.",
"C48":"Net*.v.", "C49":"Net*.v.", "C50":"Str*.v.", "C51":"Str*.v.", "C52":"Str*.v.", "C53":"Enc*.v.", "C54":"Str*.v.", "C55":"Str*.v.", "C56":"Str*.v.",
"C57":"Date*.v over a proved proleptic Gregorian calendar (Calendar.v).", "C58":"Date*.v.", "C59":"Date*.v.", "C60":"Date*.v.", "C61":"Date*.v.", "C62":"Date*.v.", "C63":"Date*.v.", "C64":"Trunc*.v.", "C65":"Trunc*.v.", "C66":"Interval*.v.", "C67":"TimeFmt*.v.", "C68":"TimeFmt*.v.",
"C69":"Agg*.v.", "C70":"Agg*.v.", "C71":"Agg*.v.", "C72":"Agg*.v.", "C73":"Agg*.v.", "C74":"Agg*.v.", "C75":"Window*.v.", "C76":"Window*.v.", "C77":"Window*.v.", "C78":"Window*.v.", "C79":"Window*.v.", "C80":"Window*.v.",
"C81":"Format*.v.", "C82":"Wildcard*.v.", "C83":"Column*.v.",
"C84":"Catalog*.v with Name*.v: full-path references proved, abbreviated ones refuted.",
"C85":"Script*.v.",
"C86":"Param*.v.",
"C87":"DateModel.extract over the calendar of CalendarModel; ISO years specified by the week that contains January 4th; exact characterisation of the days for which WEEK is right.",
"C88":"DateModel.date3 (AddDate from 0001-01-01) and extract; proved from the day-number/civil-date bijection.",
"C89":"From the boundary-counting characterisation of DATE_DIFF and the exact results of DATE_ADD.",
"C90":"Model the float64 detour as rounding to 53 bits; prove exactness below 2^53 and exhibit the wrong answers above it.",
"C92":"Model generateDateArray over the calendar; prove the DAY and WEEK forms; refute MONTH, YEAR and QUARTER forms.",
"C91":"Model FloatValue.ToInt64 on IEEE floats; prove truncation, and characterise when that is the rounding.",
"C93":"Model division and printing on rationals; prove exactness of + - * on nine-digit operands where it holds and exhibit quotients that print alike but differ.",
"C94":"Model decimal printing and strconv.ParseInt; prove the round trip and the accepted language.",
"C95":"Model strconv.ParseBool; characterise the accepted strings and compare.",
"C96":"Str*.v over a proved UTF-8 codec.",
"C97":"Str*.v; REPLACE related to the unique leftmost cut of the text.",
"C98":"Str*.v: UTF-8 decoding of an encoding.",
"C99":"Enc*.v over the UTF-8 decoder model.",
"C100":"Model Format and Parse for the layouts used; prove parse after print is the identity with positional decimal lemmas.",
"C101":"Prove an equivalence between success of the parser and an independent grammar with values.",
"C102":"Model trimming on characters over UTF-8; prove the result satisfies an independent maximal-run specification.",
"C103":"Model the binders with the base64 text of BYTES arguments; characterise TRIM, refute LTRIM/RTRIM and the default set.",
"C104":"Model the big-endian conversion; prove the round trip from bytes by arithmetic on base 256.",
"C105":"Model netip's IPv4 reader character by character and its printer; prove an iff by an invariant of the reader.",
"C106":"Exact result of the call for every row list, by induction over the rows.",
"C107":"Fold invariant over the comparison facts of C19.",
"C108":"Fold invariant modulo 2^64, and over rationals.",
"C109":"Exact result by induction over the rows.",
"C110":"Exact result by induction over the rows; the empty delimiter refutes it.",
"C111":"Exact result by induction; the empty group refutes it.",
"C112":"WindowModel: the whole path from options to frame; exact frame theorem by refinement to positions of the ordered partition",
"C113":"exact position theorem for the model, plus existence and uniqueness of each number",
"C114":"closed form of the list NTILE builds",
"C115":"exact value of the model over ROWS frames",
"C116":"exact value of the model",
"C117":"exact value of the model over ROWS frames",
"C118":"one-statement scripts in ScriptModel, effect on the database by cases on mode and previous object",
"C119":"SQLite failures are an oracle in ScriptModel; DML is one call, the others are refuted at their second call",
"C120":"model the duration arithmetic with its 64-bit limits; prove exactness iff the distance fits",
"C121":"model a location as an arbitrary offset function and time.Date in it; iff-characterise",
"C122":"split a wall clock into day and time of day; prove both directions",
"C123":"iff-characterisation of when the code's rounding is right",
"C124":"model the process's location; iff-characterise",
"C125":"modular arithmetic on the time of day",
"C126":"field decomposition of a wall clock",
"C127":"model the two unanchored regular expressions and the sum; iff-characterise",
"C128":"invariant of the location cache over arbitrary stores",
"C129":"inverse functions on instants",
"C130":"show that every field value is accepted and carried",
"C131":"The functions on the seven int32 fields; the length as a number of nanoseconds; proved by division with remainder.",
"C132":"make_part and make_interval with the 32-bit wrap; spec gives months, days and nanoseconds of each part.",
"C133":"The call of time.Date as one function of the fields; the calendar lemmas of C58 give the month reached.",
"C134":"date_minus_date with the saturating Duration; exact bound proved.",
"C135":"timestamp_plus through the wall clock of a location given as an offset function.",
"C136":"group_key is the text or number the engine compares; injectivity of each text from C100, the NUMERIC text and the column-wise induction.",
"C137":"Resolved tree, generated SQL and a semantics of both; refinement by mutual induction over the tree, with the scoping rules of SQLite.",
"C138":"As C137 with plain names; holds when all columns of the statement have names of their own; refuted for a correlated subquery over a column of the same name.",
"C139":"Text of a join inside a join, SQLite's left association; refuted for LEFT JOIN of a CROSS JOIN and for any inner ON.",
"C140":"The regular expression test of FilterScan; refuted for LIMIT.",
"C141":"Refuted from C137: SQLite takes the first row.",
"C142":"The formatter leaves the clause out: with equal names the rows keep their values, with others the statement is refused.",
"C143":"TimeFmt: format_pattern over the table of elements, against the table `documented` of the specification",
"C144":"TimeFmt: exact condition for the agreement of each element",
"C145":"TimeFmt: format_combo",
"C146":"TimeFmt: exact condition of the panics",
"C147":"TimeFmt: reads/settled",
"C148":"TimeFmt: parse_shown",
"C149":"TimeFmt: zone_round",
"C150":"parseFormat and its readers modelled on characters; the output given by an inductive relation on a list of pieces; induction on the pieces.",
"C151":"exact condition of success; left over arguments refute the rest.",
"C152":"exact condition under which the text is the documented one.",
"C153":"the precision handed to strconv.FormatFloat for each n.",
"C154":"parseString modelled; refuted for every string and width.",
"C155":"binder modelled; exact condition for a NULL result.",
"C156":"index accesses modelled as panics; induction on the format.",
"C157":"Model the text of a set operation and how its columns are looked up by name; prove exactly when UNION ALL is the concatenation; refute it for a repeated column, and INTERSECT ALL and EXCEPT ALL.",
"C158":"Prove that stored values are the same text exactly when the values are equal, then the set laws by induction over the inputs.",
"C159":"Refute: NaN is stored as NULL.",
"C160":"Model the ORDER BY terms and the engine's comparison; prove it is the lexicographic order and that sorted neighbours mean a sorted result.",
"C161":"Prove the result is that slice of the rows, with its length.",
"C162":"Refute for all of them.",
"C163":"Invariant of grouping row by row; induction over the sets.",
"C164":"Follow each element into the array, out of it, into the JSON text and out of that.",
"C165":"Refute: values with the same nearest float64 give the same element.",
"C166":"Exact characterisation of the three outcomes.",
"C167":"Prove it for plain distinct names and entries that read no table named as themselves or a later entry; refute it for the others.",
"C168":"JsonSpec reads JSON texts per RFC 8259; induction on the value, with a reading lemma for each piece of text.",
"C169":"Exact: the text is the documented one iff no number inside is wide.",
"C170":"From C168.",
"C171":"Exact set of characters for which it holds; the text is no JSON for any string with another one.",
"C172":"Refuted for every such value: the text starts with digits and a dash or colon, without quotes.",
"C173":"Case analysis on the binders.",
"C174":"The path library is a variable; the text of whole numbers is modelled; refuted from seven digits on and for null in JSON_EXTRACT_SCALAR.",
"C175":"Induction on the array; refuted for null and for the string null.",
"C176":"Direct comparison for any path library; exact condition for the scalar functions.",
"C177":"Exact condition for the crash on null with white space.",
"C178":"STRING after TO_JSON is the identity; refuted for other kinds and for the numeric conversions.",
"C179":"RowsModel: CastValue, assignInterfaceValue, Interface on top of CodecModel; induction over values",
"C180":"RowsModel; fields with different names are cast one by one",
"C181":"refuted: every field of that name shows the last value",
"C182":"refuted: fractions with a slash, raw bytes, timestamps cut to seconds",
"C183":"refuted: they always come as float64",
"C184":"RowsModel: valueFromGoReflectValue; mutual induction over what an argument stands for",
"C185":"refuted: it becomes a negative number",
"C186":"refuted: the process panics",
"C187":"refuted: an error, or the text of a struct",
"C188":"refuted: it is silently NULL",
"C189":"model the conversion methods of every kind and the shape tests and readers of texts; prove that each printed text is dispatched to the reader that inverts it",
"C190":"the conversions composed with the encoding through SQLite",
"C191":"model the zone as an arbitrary offset function",
"C192":"the dispatch by shape followed by the readers of C101",
"C193":"CAST with and without the flag over the same conversions",
"C194":"induction over the array, through both passes of CastValue",
"C195":"CastValue looks fields up by name; positive part for equal names, counterexamples for others",
"C196":"conversion and encoding",
"C197":"the conversion writes base64, which is longer",
"C198":"ToRat ignores the failure of SetString",
"C199":"conversion and encoding",
"C200":"RFC3339 has a T where the documented format has a space",
"C201":"one reader serves all the date and time types",
"C202":"A killed process is the fault model of ScriptModel with every call after the k-th refused; the next process loads the catalog from the stored rows. Induction over the list of processes: only the subject of the statement that was cut off can be out of step. Witnesses for CREATE TABLE and DROP TABLE.",
"C203":"Both statements evaluated in an arbitrary sound world without faults; the result is in step by the frame lemma of C202.",
"C204":"Case analysis on what is stored: listed names are dropped (proved); a table that is not listed makes the statement fail after it has dropped the table (witness for every such state).",
"C205":"Temporary functions: the stored state is unchanged for every moment of the crash. Temporary tables: the table stays and every later run of the same script fails (witness for every state).",
"C206":"INSERT, UPDATE, DELETE and TRUNCATE are one call to SQLite: two cases. Witnesses for MERGE (between its first and second change) and CREATE OR REPLACE TABLE (after the drop).",
"C207":"The engine is a section variable; case analysis on the position and the number of matches. The position is used as a byte offset: proved for ASCII texts and position 1, witness for a two-byte character.",
"C208":"All five functions evaluated on the engine's list of matches.",
"C209":"Arithmetic on the ends of the match; witnesses for a capturing group and for a character of two bytes.",
"C210":"Equalities between the two cases of each function; REGEXP_CONTAINS, REGEXP_EXTRACT and REGEXP_EXTRACT_ALL convert their arguments with base64 first (proved for all arguments, with a witness).",
"C211":"Models of normalizeReplacement and of regexp.Expand; induction over the replacement, with the text that follows as a parameter. One theorem for each way a replacement is misread.",
"C212":"Panics are values of the model; case analysis. Universal witnesses: a replacement that ends in a backslash, a negative occurrence_position.",
"C213":"Induction over the string with the previous character as state.",
"C214":"Instance of C213 for strings whose only white space is the blank; universal witness for tab, line feed and the like.",
"C215":"Induction over the string; the codes are given by an independent table and shown to cover all letters.",
"C216":"model the argument that the formatter adds and the binder reads; compare with t",
"C217":"induction over the query; no call reads the clock",
"C218":"compute the location of the time.Time that each branch uses",
"C219":"compare the order in which the formatter writes the arguments with the one in which the binder reads them",
"C220":"run the query against any sequence of readings",
"C221":"induction over the query with the number of readings used so far",
"C222":"the SQL kept at creation has the time in it; compare with the body formatted by the query",
"C223":"Refuted for all inputs: the operator is written as is and SQLite has no such operator.",
"C224":"Refuted: if the first input lists one column at two positions, both output columns are equal in every row whatever the other inputs hold. C137 proves the other case.",
"C225":"Refuted: the condition becomes a WHERE of the aggregating SELECT.",
"C226":"RaceModel: one step per access to the shared catalog, a mutex, and Go's abort when a map is read while it is written; invariant over schedules; the violation as a schedule for every pair of a DROP and a CREATE.",
"C227":"RaceModel; a schedule in which the query looks b up while DROP TABLE a rebuilds the catalog.",
"C228":"RaceModel; invariant: the names known to the analyzer's catalog only grow.",
"C229":"RaceModel; invariant with a log of the finished operations; the holder of the mutex is on the way to the effect of its operation.",
"C230":"RaceModel; from the invariant: the holder of the mutex never waits, and with the mutex free nobody waits.",
"C231":"RaceModel; a schedule in which the other connection's lookup finds the temporary table.",
"C232":"PrepModel: trace of the calls that reach SQLite and the catalog, with failures and row counts left open; compare stmt_exec with exec_script and stmt_query with query_script",
"C233":"PrepModel: trace of the calls that reach SQLite and the catalog, with failures and row counts left open; refuted",
"C234":"PrepModel: trace of the calls that reach SQLite and the catalog, with failures and row counts left open, database/sql's use of a nil driver.Stmt; refuted",
"C235":"PrepModel: trace of the calls that reach SQLite and the catalog, with failures and row counts left open; refuted",
"C236":"PrepModel: trace of the calls that reach SQLite and the catalog, with failures and row counts left open; refuted for two statements",
"C237":"PrepModel: trace of the calls that reach SQLite and the catalog, with failures and row counts left open; permanent ones agree, temporary ones refuted",
"C238":"PrepModel: trace of the calls that reach SQLite and the catalog, with failures and row counts left open; proved for DML, refuted for TRUNCATE and MERGE",
"C239":"PrepModel: trace of the calls that reach SQLite and the catalog, with failures and row counts left open; induction over the script",
"C240":"PrepModel: trace of the calls that reach SQLite and the catalog, with failures and row counts left open with fmt.Errorf's and ErrorGroup's Unwrap; refuted for Exec, proved for Query",
"C241":"PrepModel: trace of the calls that reach SQLite and the catalog, with failures and row counts left open; refuted: both are empty actions",
"C242":"PrepModel: trace of the calls that reach SQLite and the catalog, with failures and row counts left open; proved for Query of one query, refuted for Exec and for Close after CREATE TEMP TABLE",
"C243":"index_text compared with SQLite's grammar of unquoted identifiers; refuted",
"C244":"PrepModel: trace of the calls that reach SQLite and the catalog, with failures and row counts left open; proved for direct queries without explain mode, refuted for prepared ones",
"C245":"array scans in QueryModel; the generated comma join returns no row for any such table",
"C246":"DML and array scans in QueryModel; a table where the generated DELETE removes a row that its condition does not select",
"C247":"induction over rows and expressions; the constraints of the sequence of insertions equal those of the result",
"C248":"the refinement theorem behind C137 gives the rows, C247's lemmas the insertion",
"C249":"induction over the history",
"C250":"refuted: for every definition the table SQLite gets has neither",
"C251":"refuted for key columns, which are checked row by row; exact when the key is not set",
"C252":"refuted for every word SQLite reserves; exact characterisation",
"C253":"refuted: every such statement fails",
"C254":"refuted: the mode is not looked at",
"C255":"refuted: it is not looked at",
"C256":"refuted: type parameters are not looked at",
"C257":"case analysis; no encoded text begins like a number",
"C258":"SUM over the frame as a fold, compared with the mathematical sum.",
"C259":"Show that an out of range total always gives another number.",
"C260":"Fold with the comparison of two values; least and greatest by the specification's order.",
"C261":"Fold compared with the length of the filtered list.",
"C262":"The kept delimiter, and join; the empty delimiter separately.",
"C263":"The list kept has no duplicates and the same members.",
"C264":"Show which number it divides by.",
"C265":"Both are evaluated on permutations of the same values.",
"C266":"Characterise the index taken by the float product; sorted permutation.",
"C267":"Evaluate both on an empty list of values.",
"C268":"The first row; partitions whose greatest value is 0; FLOAT64 values.",
"C269":"Js*.v. The body of newFunctionSpec and CallSQL's substitution; the three literals are read back by a small reader of SQL literals.",
"C270":"Js*.v. Partial for names that do not begin one another; refuted by f(a, ab).",
"C271":"Js*.v. Partial below 2^53 and for types that are not NUMERIC or TIMESTAMP; refuted beyond.",
"C272":"Js*.v. Refuted: only STRUCT functions can return NULL.",
"C273":"Js*.v. Induction on the type.",
"C274":"Js*.v. Through the map of the struct.",
"C275":"Js*.v. Refuted for ARRAY functions; partial for types other than ARRAY and STRUCT.",
"C276":"Js*.v. Refuted: the comment swallows the closing brace.",
"C277":"Js*.v. By the characterisation of the parsers (C101).",
"C278":"Js*.v. Refuted: it never fails.",
"C279":"Js*.v. Refuted: the STRUCT has no fields.",
"C280":"TsArrayModel",
"C281":"TsArrayModel",
"C282":"TsArrayModel",
"C283":"TsArrayModel",
"C284":"Format with the formatter's maps; replace each reference by the subquery; induction over the entries with the refinement of C137.",
"C285":"Model the steps with the library functions as parameters, fold over the rows.",
"C286":"The step model of C285 on no and on one row.",
"C287":"Define both over the rationals and compare with what the two aggregates return.",
"C288":"Follow the distinct map of the aggregator over the rows.",
"C289":"The map's keys are the texts seen; compare cardinalities through an injection.",
"C290":"Model the float64 loop as a relation and follow its first round and the appended last value.",
"C291":"The number of rounds of the float64 loop does not depend on the values; compute it.",
"C292":"Invariant on the map after each row; the sort as a relation; both directions.",
"C293":"The invariant of C292 with sums.",
"C294":"The model of C292 with Go's equality of interface values.",
"C295":"Model the sketch library by its laws and fold.",
"C296":"The model of C295 on NULL rows and on a refused precision.",
"C297":"call_strict",
"C298":"bind_round",
"C299":"log_fn ignores y",
"C300":"go_trunc",
"C301":"go_floor go_ceil",
"C302":"sign_fn",
"C303":"ieee_divide against SFdiv",
"C304":"SFabs SFopp is_inf is_nan",
"C305":"op_fn",
"C306":"by_lib",
"C307":"safe_divide against op_div",
"C308":"ps_tail, join_ends",
"C309":"labels, gap",
"C310":"binders",
"C311":"parse_url, net_host",
"C312":"bind_hash, wrap64",
"C313":"plain_numeric",
"C314":"set_string on fractions",
"C315":"set_string",
"C316":"json_field, json_subscript",
"C317":"induction-free: by the encoding of characters",
"C318":"case split",
"C319":"by the first byte of an encoding",
"C320":"pointwise",
"C321":"pointwise, and a counterexample for every sequence that is not UTF-8",
"C322":"the result is NULL for all",
"C323":"the result is the argument",
"C324":"case split over the modes",
"C325":"case split",
"C326":"by the round trip through SQLite",
"C327":"an odd integer that is a FLOAT64 lies below 2^53",
"C328":"GapModel: the scan nodes whose text is empty are QueryModel's scan without FROM; a constant or COUNT( * ) then gives one row.",
"C329":"ClauseModel on top of AggModel: the arguments AggregateFunctionCallNode.FormatSQL writes.",
"C330":"ClauseModel on top of AggModel.",
"C331":"ClauseModel on top of WindowModel.",
"C332":"ClauseModel on top of ConvertModel.",
"C333":"ClauseModel on top of ConvertModel.",
"C334":"ClauseModel on top of ScanModel.",
"C335":"ClauseModel on top of AggModel",
"C336":"model Step and Done of the seven functions with the library's statistics as parameters; frames by the theorems of WindowProofs",
"C337":"a NULL in the frame is a nil Value whose ToFloat64 is called",
"C338":"Done looks at the size of the partition instead of the frame",
"C339":"a row with a NULL is not stored, so the current row's position is past the stored rows",
"C340":"the DISTINCT option is read by no window function",
"C341":"both call the same library function",
"C342":"model inferTemplatedTypeByRealType with the analyser as a parameter",
"C343":"compare the registered signature with the body analysed for the call",
"C344":"all ANY TYPE arguments are registered as the same type variable",
"C345":"the definition made for the call has no RETURNS",
"C346":"FormatType writes a field without a name with empty quotes",
"C347":"Concat",
"C348":"Concat",
"C349":"Concat",
"C350":"Concat",
"C351":"chain of views by induction; the text of a view evaluated by the SQLite model",
"C352":"the stored texts are those of the replaced list in another order",
"C353":"the stored texts are those of the remaining views",
"C354":"case analysis over modes",
"C355":"induction over expressions with a relation that survives the passage",
"C356":"exact value returned",
"C357":"what reaches the function",
"C358":"what reaches the function",
"C359":"exact text",
"C360":"invariant relating the stored cells and declared types with the rows",
"C361":"proved for other tables; refuted for the table itself",
"C362":"texts written and read by a JSON reader; induction on types",
"C363":"texts written and read by a JSON reader; invariant over histories",
"C364":"refuted for names SQLite reads as one number, proved for the others",
"C365":"The text of the array branch around the text of QueryModel; the simulation of C137 gives the rows, and an induction over them the state of the aggregate.",
"C366":"The aggregate of C365 with parseAggregateOptions of AggModel; the outcome for each option.",
"C367":"The loop over the groups with the shared order columns and the partition columns of the context; induction over the tree with both empty between scans.",
"C368":"The model of C367 on the nested tree.",
"C369":"Grammar of type texts in TyTextSpec, unambiguity by mutual induction, format_type of TmplModel is in it.",
}
