# DESIGN: a Rocq model of goccy/go-zetasqlite

The subject is the Go code in /repo (driver, catalog, analyzer glue, value codec, SQL function
library, aggregates and window functions).  The code was read as text, never run.  Everything below is
about a hand-written model of it in Rocq (Coq 8.16.1); the tie to the code is the citation in
the comment above each definition.

## Layout

`rocq/theories/` holds, per area `X`:

| file | contents |
|------|----------|
| `XModel.v` | computable Gallina model, one definition per Go function, each citing file and lines; no proofs |
| `XSpec.v`  | the independent specification used by the property statements (small, does not use the model) |
| `XProofs.v`| lemmas |
| `XProps.v` | the property theorems only: statement, `exact lemma.`, `Print Assumptions`, and an `Example` showing a concrete non-trivial case meeting the hypotheses |

Naming: `cNN_...` is a theorem for property CNN at full strength; `cNN_..._partial` proves it on a
stated sub-domain (what is missing is said in the comment above it and in MANIFEST.json);
`cNN_..._refuted` proves that the faithful model violates the property and gives the witness.
A property that is refuted has status `partial` in the manifest: the positive theorem says on
which inputs the code is right, the refutation says where it is not.

## Trusted base

* Coq's kernel (8.16.1) and `coqchk`.
* `Print Assumptions` under each property theorem says `Closed under the global context` (see the
  end of this file).  No axiom, parameter, functor or module type is declared.
* The reading of the Go source: the model definitions are transcriptions, the comments cite lines
  and state simplifications.
* Behaviour of things outside /repo that the model fixes by definition: Go integer arithmetic
  (two's complement wrap, truncated division, shift counts), Go `strings`/`time`/`encoding` functions
  used by the code (re-implemented in the model from their documentation), SQLite's execution of
  the generated statements where a property needs it (upsert, DELETE, CREATE/DROP TABLE, set
  semantics of the MERGE statements), and the ZetaSQL analyzer (never modelled: its output is an input of
  the model).

## Not modelled

ZetaSQL parsing/analysis, part of formatter.go's node-by-node SQL generation, the SQLite engine itself
(except where named above), JSON library and JSON path functions, the JavaScript engine (goja), regular
expressions beyond LIKE and wildcard tables, floating-point arithmetic beyond INT64 through float64, hashing,
HLL sketches, the contents of the time zone database, memory exhaustion, goroutine preemption
inside one critical section.  The tables at the end of this file say it file by file.

## Per-property plan


* **C01 Resolving a name is idempotent and extends the reference** — Name*.v. mergePath/normalizePath/getMaxNum over lists of strings. Proof by induction over the base path; idempotence needs the reachable-state invariant (dot-free components).
* **C02 A maximum name path bounds every resolved name** — Name*.v. Same model; induction over the base path with the accumulated length.
* **C03 Name path setters are all-or-nothing and keep the bound** — Name*.v. State machine over setMaxNum/setPath/addPath, invariant by induction over the call list.
* **C04 Unqualified names mean the object in the current name path** — Name*.v. Partial: holds when t differs from project and dataset; refuted otherwise (witness).
* **C05 Distinct fully qualified names are distinct objects** — Name*.v. formatPath is join by '_': refuted by a_b.c vs a.b_c; partial: injective when no component contains '_'.
* **C06 The catalog is a map from names to definitions** — Catalog*.v. tables/tableMap/functions/funcMap as in catalog.go; refinement to an association map over histories without replacement; invariant list/map agreement for all histories.
* **C07 CREATE OR REPLACE takes effect for later statements** — Catalog*.v. Refuted: getFunctions/SimpleCatalog keep the old spec and a later DROP resurrects it in the map.  Partial: the map lookup right after replacement is the new one.
* **C08 Fully qualified references find their own table** — Tree*.v. SimpleCatalog as a finite tree, addTableSpecRecursive transcribed; induction on path and on creation list.  The unequal-length case is refuted.
* **C09 Reopening a database gives back the same catalog** — Persist*.v. zetasqlite_catalog as a map with upsert semantics, Sync replay; refinement theorem under kind-disjoint names; refuted when a function and a table share a name.
* **C10 Objects created by another process become visible** — Persist*.v. Two-process schedule with logical clock; proved for atomic stamp+commit, refuted for the interleaved schedule; deletions never propagate (refuted).
* **C11 DROP IF EXISTS never fails because the object is missing** — Script*.v. DropStmtAction.exec: refuted.
* **C12 Scripts run in order and stop at the first failure** — Script*.v. ExecContext/QueryContext over abstract actions with effects; induction over the script.
* **C13 Temporary objects do not outlive Exec** — Script*.v. Exec with SQLite state + catalog; partial (temp names disjoint from existing, cleanup statements succeed); refutations where it fails.
* **C14 Temporary objects do not outlive Query** — Script*.v. Success path proved through Rows.Close; error path refuted.
* **C15 Exec never destroys an object it did not create** — Script*.v. Refuted: CREATE TEMP TABLE over an existing table drops it in Cleanup.  Partial under name-disjointness.
* **C16 The reported catalog change is the net change of the script** — Changed*.v. addTable/deleteTable folds; invariant over op lists.
* **C17 Statements run inside the open transaction and only there** — Tx*.v. state machine of connection tx pointer; invariant over histories.
* **C18 Rollback restores the catalog** — Tx*.v. Refuted (in-memory catalog is not rolled back); partial when the body has no DDL.
* **C19 Preparing a statement changes nothing** — Script*.v. Refuted for CREATE OR REPLACE; proved for other kinds.
* **C20 One database per data source name** — Dsn*.v. critical section as atomic step; invariant over interleavings.
* **C21 Named parameters bind by name** — Param*.v. getParamsFromNode/getArgsFromParams; induction over lists.
* **C22 Positional parameters bind left to right across a script** — Param*.v. Refuted for two DML statements; proved for one statement and for scripts where only the last statement has parameters.
* **C23 Calling a SQL function substitutes its arguments** — Udf*.v. strings.Replace transcribed; refuted by prefix names; partial for non-capturing names and argument texts.
* **C24 MERGE implements the SQL standard cases** — Merge*.v. relational model of the generated statements.
* **C25 A failed MERGE does not disable later MERGEs** — Merge*.v. refuted: merged table left behind.
* **C26 Stored values come back unchanged** — Codec*.v. EncodeValue/DecodeValue with JSON as an abstract tree (numbers decoded as float64 inside arrays): scalars proved, nested ints partial (|n| <= 2^53) and refuted beyond.
* **C27 Literals cannot break out of the generated SQL** — Codec*.v. base64 alphabet and %q.
* **C28 DATETIME and TIME literals keep their fields** — Packed*.v. bit-field extraction by Z.testbit/shift lemmas.
* **C29 DATE literals do not depend on the machine's time zone** — Packed*.v. offset as parameter; refuted for negative offsets, proved for 0 <= offset.
* **C30 TIMESTAMP column text converts back to the same instant** — Tstext*.v. decimal printing/parsing; round trip proved, decimal reading refuted.
* **C31 INT64 arithmetic is exact or fails** — Int*.v. wrap explicit; partial (in range), refuted (overflow).
* **C32 Comparisons of scalars form one consistent total order** — Compare*.v. scalar comparisons; total order laws.
* **C33 Equality of arrays and structs is element-wise** — Compare*.v. array comparison transcribed.
* **C34 NUMERIC arithmetic does not modify its operands** — Numeric*.v. heap of rationals, aliasing explicit; refuted.
* **C35 Casting NUMERIC to INT64 and INT64 to BOOL uses the numeric value** — Numeric*.v. refuted/partial on integers.
* **C36 AND, OR and NOT follow three-valued logic** — Logic*.v.
* **C37 IN follows three-valued logic** — Logic*.v.
* **C38 Comparison and arithmetic operators propagate NULL** — Logic*.v.
* **C39 COALESCE, IFNULL, NULLIF, IF and CASE select the documented branch** — Logic*.v.
* **C40 SAFE. functions have one meaning** — Register*.v. registration as last-write-wins over a permutation of the function list; refuted, partial for names without collision.
* **C41 LIKE matches the documented language** — Like*.v.
* **C42 Bit operators act bitwise on 64-bit words** — Bits*.v.
* **C43 GREATEST and LEAST return an extreme argument** — MathFn*.v.
* **C44 RANGE_BUCKET returns the bucket of a sorted boundary array** — MathFn*.v.
* **C45 GENERATE_ARRAY enumerates the arithmetic progression** — ArrayFn*.v.
* **C46 Array subscripts** — ArrayFn*.v.
* **C47 ARRAY_CONCAT, ARRAY_LENGTH, ARRAY_REVERSE laws** — ArrayFn*.v.
* **C48 IPv4 integer conversion round-trips** — Net*.v.
* **C49 NET.IP_TRUNC keeps exactly the network prefix** — Net*.v.
* **C50 SUBSTR takes the documented slice** — Str*.v.
* **C51 LPAD and RPAD produce exactly the requested length** — Str*.v.
* **C52 TRANSLATE maps characters simultaneously** — Str*.v.
* **C53 Text encodings round-trip** — Enc*.v.
* **C54 SPLIT and ARRAY_TO_STRING are inverse** — Str*.v.
* **C55 STRPOS, INSTR, STARTS_WITH, ENDS_WITH find the first occurrence** — Str*.v.
* **C56 REVERSE is an involution on characters** — Str*.v.
* **C57 DATE_ADD and DATE_SUB in days and weeks are inverse and exact** — Date*.v over a proved proleptic Gregorian calendar (Calendar.v).
* **C58 Month and year arithmetic clamps to the end of the month** — Date*.v.
* **C59 DATE_DIFF counts boundaries** — Date*.v.
* **C60 DATE_TRUNC is the start of the enclosing period** — Date*.v.
* **C61 LAST_DAY is the last day of the enclosing period** — Date*.v.
* **C62 UNIX_DATE and DATE_FROM_UNIX_DATE are inverse** — Date*.v.
* **C63 EXTRACT agrees with the calendar** — Date*.v.
* **C64 TIMESTAMP_TRUNC and DATETIME_TRUNC round down to the part** — Trunc*.v.
* **C65 UNIX_MICROS, MILLIS, SECONDS convert both ways** — Trunc*.v.
* **C66 JUSTIFY functions preserve the interval** — Interval*.v.
* **C67 PARSE_DATE inverts FORMAT_DATE** — TimeFmt*.v.
* **C68 Parsing rejects text that does not match the format** — TimeFmt*.v.
* **C69 COUNT, SUM, MIN, MAX, AVG compute their definition** — Agg*.v.
* **C70 BIT_AND, BIT_OR, BIT_XOR aggregates fold the operator** — Agg*.v.
* **C71 DISTINCT feeds each value once, IGNORE NULLS no NULL** — Agg*.v.
* **C72 ORDER BY and LIMIT inside aggregates** — Agg*.v.
* **C73 User data is never mistaken for an aggregate option** — Agg*.v.
* **C74 GROUP BY keys separate distinct groups** — Agg*.v.
* **C75 ROWS frames select the documented rows** — Window*.v.
* **C76 RANGE frames select peers by value** — Window*.v.
* **C77 Partitions are independent** — Window*.v.
* **C78 ROW_NUMBER, RANK, DENSE_RANK number the ordered partition** — Window*.v.
* **C79 LEAD, LAG, FIRST_VALUE, LAST_VALUE, NTH_VALUE address rows by position** — Window*.v.
* **C80 NTILE splits into buckets of near-equal size** — Window*.v.
* **C81 FORMAT %d, %' and width print the number** — Format*.v.
* **C82 Wildcard tables read exactly the tables with the prefix** — Wildcard*.v.
* **C83 Generated column names never collide** — Column*.v.
* **C84 A table reference reads the table whose columns it was checked against** — Catalog*.v with Name*.v: full-path references proved, abbreviated ones refuted.
* **C85 TRUNCATE empties the table its reference denotes** — Script*.v.
* **C86 A missing named argument is reported** — Param*.v.
* **C87 EXTRACT of weeks and ISO weeks follows the calendar** — DateModel.extract over the calendar of CalendarModel; ISO years specified by the week that contains January 4th; exact characterisation of the days for which WEEK is right.
* **C88 DATE(y, m, d) and EXTRACT are inverse** — DateModel.date3 (AddDate from 0001-01-01) and extract; proved from the day-number/civil-date bijection.
* **C89 DATE_DIFF undoes DATE_ADD** — From the boundary-counting characterisation of DATE_DIFF and the exact results of DATE_ADD.
* **C90 Integer math functions are exact or NULL** — Model the float64 detour as rounding to 53 bits; prove exactness below 2^53 and exhibit the wrong answers above it.
* **C92 GENERATE_DATE_ARRAY enumerates the dates** — Model generateDateArray over the calendar; prove the DAY and WEEK forms; refute MONTH, YEAR and QUARTER forms.
* **C91 CAST of FLOAT64 to INT64 rounds half away from zero** — Model FloatValue.ToInt64 on IEEE floats; prove truncation, and characterise when that is the rounding.
* **C93 NUMERIC values have at most nine decimal digits after the point** — Model division and printing on rationals; prove exactness of + - * on nine-digit operands where it holds and exhibit quotients that print alike but differ.
* **C94 CAST between INT64 and STRING** — Model decimal printing and strconv.ParseInt; prove the round trip and the accepted language.
* **C95 CAST between BOOL and STRING** — Model strconv.ParseBool; characterise the accepted strings and compare.
* **C96 LEFT and RIGHT take exactly the requested end of the text** — Str*.v over a proved UTF-8 codec.
* **C97 REPLACE and REPEAT rewrite every occurrence** — Str*.v; REPLACE related to the unique leftmost cut of the text.
* **C98 Lengths add up under concatenation** — Str*.v: UTF-8 decoding of an encoding.
* **C99 SAFE_CONVERT_BYTES_TO_STRING always yields valid text** — Enc*.v over the UTF-8 decoder model.
* **C100 Dates and times read back from their own text** — Model Format and Parse for the layouts used; prove parse after print is the identity with positional decimal lemmas.
* **C101 Only text of an existing date or time is read as one** — Prove an equivalence between success of the parser and an independent grammar with values.
* **C102 TRIM, LTRIM and RTRIM remove exactly the characters asked for** — Model trimming on characters over UTF-8; prove the result satisfies an independent maximal-run specification.
* **C103 Trimming BYTES and default trimming** — Model the binders with the base64 text of BYTES arguments; characterise TRIM, refute LTRIM/RTRIM and the default set.
* **C104 IPv4 bytes and integers** — Model the big-endian conversion; prove the round trip from bytes by arithmetic on base 256.
* **C105 IPv4 texts** — Model netip's IPv4 reader character by character and its printer; prove an iff by an invariant of the reader.
* **C106 COUNT(*), COUNT(x) and COUNTIF count** — Exact result of the call for every row list, by induction over the rows.
* **C107 MIN and MAX return a least and a greatest value** — Fold invariant over the comparison facts of C19.
* **C108 SUM over INT64 and NUMERIC is exact and independent of row order** — Fold invariant modulo 2^64, and over rationals.
* **C109 ARRAY_AGG keeps the rows in order** — Exact result by induction over the rows.
* **C110 STRING_AGG joins with the given delimiter** — Exact result by induction over the rows; the empty delimiter refutes it.
* **C111 LOGICAL_AND and LOGICAL_OR fold the non-NULL values** — Exact result by induction; the empty group refutes it.
* **C112 A ROWS frame that contains the current row is exactly those rows** — WindowModel: the whole path from options to frame; exact frame theorem by refinement to positions of the ordered partition
* **C113 ROW_NUMBER numbers the ordered partition 1..n** — exact position theorem for the model, plus existence and uniqueness of each number
* **C114 NTILE starts at 1 and never skips a bucket** — closed form of the list NTILE builds
* **C115 Window AVG is the sum of the values over their number** — exact value of the model over ROWS frames
* **C116 CUME_DIST and PERCENT_RANK are shares of the partition** — exact value of the model
* **C117 FIRST_VALUE and LAST_VALUE with RESPECT or IGNORE NULLS** — exact value of the model over ROWS frames
* **C118 CREATE TABLE makes the table its mode says** — one-statement scripts in ScriptModel, effect on the database by cases on mode and previous object
* **C119 A statement that fails changes nothing** — SQLite failures are an oracle in ScriptModel; DML is one call, the others are refuted at their second call
* **C120 Adding and subtracting clock units is exact** — model the duration arithmetic with its 64-bit limits; prove exactness iff the distance fits
* **C121 TIMESTAMP_ADD in days adds 24 hours per day** — model a location as an arbitrary offset function and time.Date in it; iff-characterise
* **C122 DATETIME_ADD with a calendar part changes the date as DATE_ADD does** — split a wall clock into day and time of day; prove both directions
* **C123 Differences in days** — iff-characterisation of when the code's rounding is right
* **C124 Conversions from TIMESTAMP use UTC unless a zone is given** — model the process's location; iff-characterise
* **C125 TIME arithmetic wraps at midnight** — modular arithmetic on the time of day
* **C126 EXTRACT of clock parts and construction from fields are inverse** — field decomposition of a wall clock
* **C127 Time zone offsets mean what they say** — model the two unanchored regular expressions and the sum; iff-characterise
* **C128 A zone name means the same at every time** — invariant of the location cache over arbitrary stores
* **C129 TIMESTAMP and DATETIME convert back and forth in a given zone** — inverse functions on instants
* **C130 DATE, DATETIME and TIME of fields that do not exist fail** — show that every field value is accepted and carried
* **C131 JUSTIFY keeps the length of an interval as written** — The functions on the seven int32 fields; the length as a number of nanoseconds; proved by division with remainder.
* **C132 INTERVAL n part is n of the part** — make_part and make_interval with the 32-bit wrap; spec gives months, days and nanoseconds of each part.
* **C133 DATE or DATETIME plus or minus an INTERVAL** — The call of time.Date as one function of the fields; the calendar lemmas of C58 give the month reached.
* **C134 DATE minus DATE is the number of days between them** — date_minus_date with the saturating Duration; exact bound proved.
* **C135 TIMESTAMP plus an INTERVAL** — timestamp_plus through the wall clock of a location given as an offset function.
* **C136 GROUP BY separates exactly for most types** — group_key is the text or number the engine compares; injectivity of each text from C100, the NUMERIC text and the column-wise induction.
* **C137 A query with subqueries returns what it was resolved to** — Resolved tree, generated SQL and a semantics of both; refinement by mutual induction over the tree, with the scoping rules of SQLite.
* **C138 DELETE and UPDATE read the columns their expressions were resolved to** — As C137 with plain names; holds when all columns of the statement have names of their own; refuted for a correlated subquery over a column of the same name.
* **C139 Parenthesised joins mean what they say** — Text of a join inside a join, SQLite's left association; refuted for LEFT JOIN of a CROSS JOIN and for any inner ON.
* **C140 A condition can be put on any subquery** — The regular expression test of FilterScan; refuted for LIMIT.
* **C141 A scalar subquery of several rows is an error** — Refuted from C137: SQLite takes the first row.
* **C142 UPDATE FROM joins the tables of its FROM clause** — The formatter leaves the clause out: with equal names the rows keep their values, with others the statement is refused.
* **C143 Most format elements print their documented text** — TimeFmt: format_pattern over the table of elements, against the table `documented` of the specification
* **C144 Every format element prints its documented text** — TimeFmt: exact condition for the agreement of each element
* **C145 %E elements print their text and nothing of the format is lost** — TimeFmt: format_combo
* **C146 FORMAT and PARSE of dates and times never crash** — TimeFmt: exact condition of the panics
* **C147 Hours from 1 to 12 with AM or PM are read as documented** — TimeFmt: reads/settled
* **C148 PARSE_TIME inverts FORMAT_TIME** — TimeFmt: parse_shown
* **C149 PARSE_TIMESTAMP inverts FORMAT_TIMESTAMP when the offset is printed** — TimeFmt: zone_round
* **C150 FORMAT replaces its specifiers from left to right** — parseFormat and its readers modelled on characters; the output given by an inductive relation on a list of pieces; induction on the pieces.
* **C151 FORMAT fails when the arguments do not match the format** — exact condition of success; left over arguments refute the rest.
* **C152 FORMAT flags + and space put the sign next to the number** — exact condition under which the text is the documented one.
* **C153 FORMAT precision sets the number of decimals** — the precision handed to strconv.FormatFloat for each n.
* **C154 FORMAT width applies to strings** — parseString modelled; refuted for every string and width.
* **C155 FORMAT prints NULL for %t and %T** — binder modelled; exact condition for a NULL result.
* **C156 FORMAT does not crash** — index accesses modelled as panics; induction on the format.
* **C157 Set operations match columns by position** — Model the text of a set operation and how its columns are looked up by name; prove exactly when UNION ALL is the concatenation; refute it for a repeated column, and INTERSECT ALL and EXCEPT ALL.
* **C158 UNION, INTERSECT and EXCEPT DISTINCT have each row once** — Prove that stored values are the same text exactly when the values are equal, then the set laws by induction over the inputs.
* **C159 NaN is a value of its own** — Refute: NaN is stored as NULL.
* **C160 ORDER BY sorts by its keys, with NULLs where they belong** — Model the ORDER BY terms and the engine's comparison; prove it is the lexicographic order and that sorted neighbours mean a sorted result.
* **C161 LIMIT and OFFSET cut the rows** — Prove the result is that slice of the rows, with its length.
* **C162 A negative LIMIT or OFFSET is an error** — Refute for all of them.
* **C163 GROUP BY, ROLLUP: one row per group of each grouping set** — Invariant of grouping row by row; induction over the sets.
* **C164 UNNEST gives the elements in order with their offsets** — Follow each element into the array, out of it, into the JSON text and out of that.
* **C165 UNNEST keeps large INT64 values** — Refute: values with the same nearest float64 give the same element.
* **C166 IN over a subquery follows three-valued logic** — Exact characterisation of the three outcomes.
* **C167 A WITH query means its entries in order** — Prove it for plain distinct names and entries that read no table named as themselves or a later entry; refute it for the others.
* **C168 TO_JSON writes a JSON text of the value** — JsonSpec reads JSON texts per RFC 8259; induction on the value, with a reading lemma for each piece of text.
* **C169 TO_JSON_STRING writes wide numbers as strings** — Exact: the text is the documented one iff no number inside is wide.
* **C170 PARSE_JSON reads back what TO_JSON_STRING wrote** — From C168.
* **C171 TO_JSON of a STRING is a JSON string** — Exact set of characters for which it holds; the text is no JSON for any string with another one.
* **C172 TO_JSON of dates, times and special floats is JSON** — Refuted for every such value: the text starts with digits and a dash or colon, without quotes.
* **C173 TO_JSON and TO_JSON_STRING of NULL are null** — Case analysis on the binders.
* **C174 JSON_VALUE returns the text of a scalar** — The path library is a variable; the text of whole numbers is modelled; refuted from seven digits on and for null in JSON_EXTRACT_SCALAR.
* **C175 JSON_VALUE_ARRAY returns the scalars in order** — Induction on the array; refuted for null and for the string null.
* **C176 JSON_EXTRACT functions agree with the standard ones** — Direct comparison for any path library; exact condition for the scalar functions.
* **C177 JSON_TYPE names the kind of the document** — Exact condition for the crash on null with white space.
* **C178 STRING, BOOL, INT64 and FLOAT64 of JSON convert the value** — STRING after TO_JSON is the identity; refuted for other kinds and for the numeric conversions.
* **C179 Rows hold the values of their columns** — RowsModel: CastValue, assignInterfaceValue, Interface on top of CodecModel; induction over values
* **C180 STRUCT columns come field by field** — RowsModel; fields with different names are cast one by one
* **C181 Fields of the same name keep their own values** — refuted: every field of that name shows the last value
* **C182 A value looks the same inside a STRUCT** — refuted: fractions with a slash, raw bytes, timestamps cut to seconds
* **C183 INT64 fields of a STRUCT without names are integers** — refuted: they always come as float64
* **C184 Arguments arrive unchanged** — RowsModel: valueFromGoReflectValue; mutual induction over what an argument stands for
* **C185 Unsigned arguments above the INT64 range are refused** — refuted: it becomes a negative number
* **C186 A nil pointer is NULL** — refuted: the process panics
* **C187 sql.Null arguments are their value or NULL** — refuted: an error, or the text of a struct
* **C188 Fields are matched or refused** — refuted: it is silently NULL
* **C189 CAST to STRING and back is the identity** — model the conversion methods of every kind and the shape tests and readers of texts; prove that each printed text is dispatched to the reader that inverts it
* **C190 Casts between dates and times** — the conversions composed with the encoding through SQLite
* **C191 CAST of a TIMESTAMP does not depend on the machine** — model the zone as an arbitrary offset function
* **C192 CAST of a STRING to a date or time** — the dispatch by shape followed by the readers of C101
* **C193 SAFE_CAST** — CAST with and without the flag over the same conversions
* **C194 CAST of arrays** — induction over the array, through both passes of CastValue
* **C195 CAST of structs** — CastValue looks fields up by name; positive part for equal names, counterexamples for others
* **C196 CAST of STRING to BYTES** — conversion and encoding
* **C197 CAST of BYTES to STRING** — the conversion writes base64, which is longer
* **C198 CAST of STRING to NUMERIC** — ToRat ignores the failure of SetString
* **C199 Numbers survive widening** — conversion and encoding
* **C200 Text of a TIMESTAMP** — RFC3339 has a T where the documented format has a space
* **C201 CAST of STRING rejects texts of another type** — one reader serves all the date and time types
* **C202 A crash leaves every table in step with the catalog** — A killed process is the fault model of ScriptModel with every call after the k-th refused; the next process loads the catalog from the stored rows. Induction over the list of processes: only the subject of the statement that was cut off can be out of step. Witnesses for CREATE TABLE and DROP TABLE.
* **C203 CREATE OR REPLACE TABLE and CREATE TABLE IF NOT EXISTS repair a table after a crash** — Both statements evaluated in an arbitrary sound world without faults; the result is in step by the frame lemma of C202.
* **C204 DROP TABLE IF EXISTS cleans up after a crash** — Case analysis on what is stored: listed names are dropped (proved); a table that is not listed makes the statement fail after it has dropped the table (witness for every such state).
* **C205 Temporary objects do not outlive the process** — Temporary functions: the stored state is unchanged for every moment of the crash. Temporary tables: the table stays and every later run of the same script fails (witness for every state).
* **C206 A statement is all or nothing when the process is killed** — INSERT, UPDATE, DELETE and TRUNCATE are one call to SQLite: two cases. Witnesses for MERGE (between its first and second change) and CREATE OR REPLACE TABLE (after the drop).
* **C207 REGEXP_EXTRACT starts at the given character** — The engine is a section variable; case analysis on the position and the number of matches. The position is used as a byte offset: proved for ASCII texts and position 1, witness for a two-byte character.
* **C208 The REGEXP functions agree on whether there is a match** — All five functions evaluated on the engine's list of matches.
* **C209 REGEXP_INSTR points at what REGEXP_EXTRACT returns** — Arithmetic on the ends of the match; witnesses for a capturing group and for a character of two bytes.
* **C210 The REGEXP functions work on BYTES as on STRING** — Equalities between the two cases of each function; REGEXP_CONTAINS, REGEXP_EXTRACT and REGEXP_EXTRACT_ALL convert their arguments with base64 first (proved for all arguments, with a witness).
* **C211 REGEXP_REPLACE reads the replacement as documented** — Models of normalizeReplacement and of regexp.Expand; induction over the replacement, with the text that follows as a parameter. One theorem for each way a replacement is misread.
* **C212 The REGEXP functions do not crash** — Panics are values of the model; case analysis. Universal witnesses: a replacement that ends in a backslash, a negative occurrence_position.
* **C213 INITCAP with delimiters** — Induction over the string with the previous character as state.
* **C214 INITCAP without delimiters** — Instance of C213 for strings whose only white space is the blank; universal witness for tab, line feed and the like.
* **C215 SOUNDEX code** — Induction over the string; the codes are given by an independent table and shown to cover all letters.
* **C216 WithCurrentTime decides what CURRENT_TIMESTAMP shows** — model the argument that the formatter adds and the binder reads; compare with t
* **C217 A query under WithCurrentTime does not look at the clock** — induction over the query; no call reads the clock
* **C218 The current date and time are those of UTC by default** — compute the location of the time.Time that each branch uses
* **C219 The functions of the clock take a time zone** — compare the order in which the formatter writes the arguments with the one in which the binder reads them
* **C220 All current times in one query agree** — run the query against any sequence of readings
* **C221 Current times lie between the start and the end of the query** — induction over the query with the number of readings used so far
* **C222 Views, functions and prepared statements show the time of the query** — the SQL kept at creation has the time in it; compare with the body formatted by the query
* **C223 INTERSECT ALL and EXCEPT ALL work** — Refuted for all inputs: the operator is written as is and SQLite has no such operator.
* **C224 A query in a set operation may select a column twice** — Refuted: if the first input lists one column at two positions, both output columns are equal in every row whatever the other inputs hold. C137 proves the other case.
* **C225 HAVING works without GROUP BY** — Refuted: the condition becomes a WHERE of the aggregating SELECT.
* **C226 Goroutines on one database do not crash the process** — RaceModel: one step per access to the shared catalog, a mutex, and Go's abort when a map is read while it is written; invariant over schedules; the violation as a schedule for every pair of a DROP and a CREATE.
* **C227 A table that nobody drops is found** — RaceModel; a schedule in which the query looks b up while DROP TABLE a rebuilds the catalog.
* **C228 While nobody drops anything, every table is found** — RaceModel; invariant: the names known to the analyzer's catalog only grow.
* **C229 Concurrent changes end as some serial order of them would** — RaceModel; invariant with a log of the finished operations; the holder of the mutex is on the way to the effect of its operation.
* **C230 Statements do not deadlock on the catalog** — RaceModel; from the invariant: the holder of the mutex never waits, and with the mutex free nobody waits.
* **C231 Temporary tables are seen only by the script that creates them** — RaceModel; a schedule in which the other connection's lookup finds the temporary table.
* **C232 A prepared INSERT, UPDATE, DELETE or query behaves as executed directly** — PrepModel: trace of the calls that reach SQLite and the catalog, with failures and row counts left open; compare stmt_exec with exec_script and stmt_query with query_script
* **C233 A prepared CREATE TABLE or CREATE VIEW can be executed** — PrepModel: trace of the calls that reach SQLite and the catalog, with failures and row counts left open; refuted
* **C234 Prepared DROP, TRUNCATE, MERGE, BEGIN and COMMIT can be executed** — PrepModel: trace of the calls that reach SQLite and the catalog, with failures and row counts left open, database/sql's use of a nil driver.Stmt; refuted
* **C235 Named arguments of prepared statements** — PrepModel: trace of the calls that reach SQLite and the catalog, with failures and row counts left open; refuted
* **C236 Preparing a script** — PrepModel: trace of the calls that reach SQLite and the catalog, with failures and row counts left open; refuted for two statements
* **C237 A prepared CREATE FUNCTION** — PrepModel: trace of the calls that reach SQLite and the catalog, with failures and row counts left open; permanent ones agree, temporary ones refuted
* **C238 RowsAffected is the number of changed rows** — PrepModel: trace of the calls that reach SQLite and the catalog, with failures and row counts left open; proved for DML, refuted for TRUNCATE and MERGE
* **C239 Exec succeeds only if everything was done, and otherwise says why** — PrepModel: trace of the calls that reach SQLite and the catalog, with failures and row counts left open; induction over the script
* **C240 errors.Is and errors.As find the cause** — PrepModel: trace of the calls that reach SQLite and the catalog, with failures and row counts left open with fmt.Errorf's and ErrorGroup's Unwrap; refuted for Exec, proved for Query
* **C241 BEGIN TRANSACTION ... COMMIT TRANSACTION in a script is atomic** — PrepModel: trace of the calls that reach SQLite and the catalog, with failures and row counts left open; refuted: both are empty actions
* **C242 Explain mode only explains** — PrepModel: trace of the calls that reach SQLite and the catalog, with failures and row counts left open; proved for Query of one query, refuted for Exec and for Close after CREATE TEMP TABLE
* **C243 Auto index mode works for every table** — index_text compared with SQLite's grammar of unquoted identifiers; refuted
* **C244 ChangedCatalogFromRows works on the rows of every query** — PrepModel: trace of the calls that reach SQLite and the catalog, with failures and row counts left open; proved for direct queries without explain mode, refuted for prepared ones
* **C245 LEFT JOIN UNNEST keeps rows with empty arrays** — array scans in QueryModel; the generated comma join returns no row for any such table
* **C246 A DELETE condition with UNNEST reads the table's columns whatever they are called** — DML and array scans in QueryModel; a table where the generated DELETE removes a row that its condition does not select
* **C247 INSERT ... VALUES stores each value in its column** — induction over rows and expressions; the constraints of the sequence of insertions equal those of the result
* **C248 INSERT ... SELECT stores the rows of the query** — the refinement theorem behind C137 gives the rows, C247's lemmas the insertion
* **C249 NOT NULL and PRIMARY KEY hold after every history** — induction over the history
* **C250 CREATE TABLE (columns) AS SELECT keeps NOT NULL and PRIMARY KEY** — refuted: for every definition the table SQLite gets has neither
* **C251 UPDATE fails only if its result violates a constraint** — refuted for key columns, which are checked row by row; exact when the key is not set
* **C252 A key column may have any name** — refuted for every word SQLite reserves; exact characterisation
* **C253 DEFAULT is the default value** — refuted: every such statement fails
* **C254 INSERT OR IGNORE, OR REPLACE and OR UPDATE do not fail on an existing key** — refuted: the mode is not looked at
* **C255 ASSERT_ROWS_MODIFIED is checked** — refuted: it is not looked at
* **C256 A column STRING(L) takes no longer texts** — refuted: type parameters are not looked at
* **C257 The type of a column does not change what is stored** — case analysis; no encoded text begins like a number
* **C258 SUM over a frame is the exact sum** — SUM over the frame as a fold, compared with the mathematical sum.
* **C259 SUM over a frame does not silently overflow** — Show that an out of range total always gives another number.
* **C260 MIN and MAX over a frame** — Fold with the comparison of two values; least and greatest by the specification's order.
* **C261 COUNTIF over a frame** — Fold compared with the length of the filtered list.
* **C262 STRING_AGG over a frame** — The kept delimiter, and join; the empty delimiter separately.
* **C263 DISTINCT over a frame** — The list kept has no duplicates and the same members.
* **C264 AVG(DISTINCT) over a frame** — Show which number it divides by.
* **C265 An aggregate over the whole partition is the aggregate of the group** — Both are evaluated on permutations of the same values.
* **C266 PERCENTILE_DISC is an order statistic** — Characterise the index taken by the float product; sorted permutation.
* **C267 Percentiles of a partition without values** — Evaluate both on an empty list of values.
* **C268 PERCENTILE_CONT interpolates the values** — The first row; partitions whose greatest value is 0; FLOAT64 values.
* **C269 The code of a JavaScript function reaches the engine unchanged** — Js*.v. The body of newFunctionSpec and CallSQL's substitution; the three literals are read back by a small reader of SQL literals.
* **C270 The arguments of a JavaScript function arrive in order** — Js*.v. Partial for names that do not begin one another; refuted by f(a, ab).
* **C271 A JavaScript function that returns its argument gives it back** — Js*.v. Partial below 2^53 and for types that are not NUMERIC or TIMESTAMP; refuted beyond.
* **C272 A JavaScript function that returns null returns NULL** — Js*.v. Refuted: only STRUCT functions can return NULL.
* **C273 Arrays and objects returned by JavaScript are converted by element and by name** — Js*.v. Induction on the type.
* **C274 The order of the properties of a returned object does not matter** — Js*.v. Through the map of the struct.
* **C275 A JavaScript function does not crash the process** — Js*.v. Refuted for ARRAY functions; partial for types other than ARRAY and STRUCT.
* **C276 The code of a JavaScript function may end in a comment** — Js*.v. Refuted: the comment swallows the closing brace.
* **C277 JavaScript functions returning dates and times accept exactly the texts of one** — Js*.v. By the characterisation of the parsers (C101).
* **C278 A NUMERIC JavaScript function fails when it returns no number** — Js*.v. Refuted: it never fails.
* **C279 An object without properties is a STRUCT of NULLs** — Js*.v. Refuted: the STRUCT has no fields.
* **C280 GENERATE_TIMESTAMP_ARRAY is the arithmetic series** — TsArrayModel
* **C281 GENERATE_TIMESTAMP_ARRAY returns** — TsArrayModel
* **C282 GENERATE_TIMESTAMP_ARRAY of NULL, and with step 0** — TsArrayModel
* **C283 EXTRACT reads the parts of an INTERVAL** — TsArrayModel
* **C284 A query over WITH entries returns what it means** — Format with the formatter's maps; replace each reference by the subquery; induction over the entries with the refinement of C137.
* **C285 Statistics ignore NULL** — Model the steps with the library functions as parameters, fold over the rows.
* **C286 Sample statistics of fewer than two rows are NULL** — The step model of C285 on no and on one row.
* **C287 COVAR_POP is the population covariance** — Define both over the rationals and compare with what the two aggregates return.
* **C288 DISTINCT compares all arguments** — Follow the distinct map of the aggregator over the rows.
* **C289 APPROX_COUNT_DISTINCT counts the distinct values** — The map's keys are the texts seen; compare cardinalities through an injection.
* **C290 APPROX_QUANTILES begins with the least and ends with the greatest value** — Model the float64 loop as a relation and follow its first round and the appended last value.
* **C291 APPROX_QUANTILES has n + 1 elements** — The number of rounds of the float64 loop does not depend on the values; compute it.
* **C292 APPROX_TOP_COUNT returns the most frequent values** — Invariant on the map after each row; the sort as a relation; both directions.
* **C293 APPROX_TOP_SUM returns the heaviest values** — The invariant of C292 with sums.
* **C294 APPROX_TOP_COUNT works for every groupable type and number** — The model of C292 with Go's equality of interface values.
* **C295 Merging sketches counts all rows** — Model the sketch library by its laws and fold.
* **C296 HLL_COUNT.INIT ignores NULL and refuses bad precisions** — The model of C295 on NULL rows and on a refused precision.
* **C297 A math function of NULL is NULL** — call_strict
* **C298 ROUND with a NULL precision is NULL** — bind_round
* **C299 LOG takes its base into account** — log_fn ignores y
* **C300 TRUNC cuts off digits** — go_trunc
* **C301 FLOOR and CEIL of FLOAT64 are exact** — go_floor go_ceil
* **C302 SIGN is the sign of the number** — sign_fn
* **C303 IEEE_DIVIDE is division by IEEE 754** — ieee_divide against SFdiv
* **C304 ABS, SAFE_NEGATE, IS_INF and IS_NAN of FLOAT64 are exact** — SFabs SFopp is_inf is_nan
* **C305 FLOAT64 overflow is reported** — op_fn
* **C306 Arguments outside a function's domain are an error** — by_lib
* **C307 A SAFE_ function is its operator with NULL for errors** — safe_divide against op_div
* **C308 NET.REG_DOMAIN is NET.PUBLIC_SUFFIX and one label** — ps_tail, join_ends
* **C309 NET.PUBLIC_SUFFIX is the end of the host name as written** — labels, gap
* **C310 NET and PARSE_NUMERIC functions of NULL are NULL** — binders
* **C311 NET.HOST is the host of the URL** — parse_url, net_host
* **C312 Hashes of STRING and BYTES agree** — bind_hash, wrap64
* **C313 PARSE_NUMERIC reads back printed numbers** — plain_numeric
* **C314 PARSE_NUMERIC refuses what is no decimal number** — set_string on fractions
* **C315 PARSE_NUMERIC keeps to the digits and range of NUMERIC** — set_string
* **C316 JSON field access and subscript agree** — json_field, json_subscript
* **C317 UNICODE undoes CHR** — induction-free: by the encoding of characters
* **C318 CHR refuses numbers that are no code points** — case split
* **C319 ASCII is about ASCII** — by the first byte of an encoding
* **C320 UPPER and LOWER change letters only** — pointwise
* **C321 UPPER and LOWER of BYTES work on bytes** — pointwise, and a counterexample for every sequence that is not UTF-8
* **C322 CONTAINS_SUBSTR finds texts** — the result is NULL for all
* **C323 COLLATE makes comparison ignore case** — the result is the argument
* **C324 NORMALIZE and NORMALIZE_AND_CASEFOLD** — case split over the modes
* **C325 ERROR never returns** — case split
* **C326 A field of a constructed STRUCT is the value given** — by the round trip through SQLite
* **C327 Functions of exact types are exact** — an odd integer that is a FLOAT64 lies below 2^53
* **C328 FROM items that are not supported are errors** — GapModel: the scan nodes whose text is empty are QueryModel's scan without FROM; a constant or COUNT( * ) then gives one row.
* **C329 HAVING MAX and HAVING MIN choose the rows of an aggregate** — ClauseModel on top of AggModel: the arguments AggregateFunctionCallNode.FormatSQL writes.
* **C330 NULLS FIRST and NULLS LAST order the rows of an aggregate** — ClauseModel on top of AggModel.
* **C331 NULLS FIRST and NULLS LAST order the rows of a window** — ClauseModel on top of WindowModel.
* **C332 CAST with FORMAT uses the format** — ClauseModel on top of ConvertModel.
* **C333 CAST to a type with parameters keeps to them** — ClauseModel on top of ConvertModel.
* **C334 ORDER BY with COLLATE ignores case** — ClauseModel on top of ScanModel.
* **C335 DISTINCT, IGNORE NULLS and LIMIT of an aggregate take effect** — ClauseModel on top of AggModel
* **C336 Statistics over a frame are those of the frame's rows** — model Step and Done of the seven functions with the library's statistics as parameters; frames by the theorems of WindowProofs
* **C337 Statistics over a frame ignore NULL** — a NULL in the frame is a nil Value whose ToFloat64 is called
* **C338 Statistics of one value over a frame** — Done looks at the size of the partition instead of the frame
* **C339 CORR and COVAR over a frame leave out rows with a NULL** — a row with a NULL is not stored, so the current row's position is past the stored rows
* **C340 DISTINCT in statistics over a frame** — the DISTINCT option is read by no window function
* **C341 COVAR_POP over a frame is the population covariance** — both call the same library function
* **C342 Definitions with ANY TYPE arguments** — model inferTemplatedTypeByRealType with the analyser as a parameter
* **C343 The type of a call with ANY TYPE arguments** — compare the registered signature with the body analysed for the call
* **C344 ANY TYPE arguments are independent** — all ANY TYPE arguments are registered as the same type variable
* **C345 RETURNS of a function with ANY TYPE arguments** — the definition made for the call has no RETURNS
* **C346 Structs as ANY TYPE arguments** — FormatType writes a field without a name with empty quotes
* **C347 ARRAY_CONCAT_AGG joins the arrays of the group** — Concat
* **C348 Arrays of nothing are NULL** — Concat
* **C349 ANY_VALUE over a frame returns a value of the frame that is not NULL if there is one** — Concat
* **C350 ARRAY_AGG with IGNORE NULLS over a frame leaves NULLs out** — Concat
* **C351 A view shows the rows its query means over the current tables** — chain of views by induction; the text of a view evaluated by the SQLite model
* **C352 CREATE OR REPLACE VIEW changes the view and the views made from it, and nothing else** — the stored texts are those of the replaced list in another order
* **C353 DROP VIEW removes the view and leaves the others** — the stored texts are those of the remaining views
* **C354 CREATE VIEW of a taken name changes no view** — case analysis over modes
* **C355 ARRAY and STRUCT expressions give the values they are made of** — induction over expressions with a relation that survives the passage
* **C356 Array elements and struct fields keep large INT64 values** — exact value returned
* **C357 TO_JSON and TO_JSON_STRING write BOOL as true and false** — what reaches the function
* **C358 FORMAT writes BOOL as true and false** — what reaches the function
* **C359 TO_JSON_STRING writes the elements of an array as it writes them alone** — exact text
* **C360 Values stay the same through copies of tables** — invariant relating the stored cells and declared types with the rows
* **C361 CREATE OR REPLACE TABLE AS SELECT may read the table it replaces** — proved for other tables; refuted for the table itself
* **C362 UnmarshalDatabaseTypeName inverts DatabaseTypeName** — texts written and read by a JSON reader; induction on types
* **C363 The catalog table gives back every definition** — texts written and read by a JSON reader; invariant over histories
* **C364 Tables of different names are different rows of the catalog table** — refuted for names SQLite reads as one number, proved for the others
* **C365 ARRAY(subquery) has an element for each row** — The text of the array branch around the text of QueryModel; the simulation of C137 gives the rows, and an induction over them the state of the aggregate.
* **C366 ARRAY(subquery) keeps every value whatever its text** — The aggregate of C365 with parseAggregateOptions of AggModel; the outcome for each option.
* **C367 Each window function has its own OVER** — The loop over the groups with the shared order columns and the partition columns of the context; induction over the tree with both empty between scans.
* **C368 A window function in an argument of another leaves the OVER of both** — The model of C367 on the nested tree.
* **C369 Argument types of calls with ANY TYPE arguments** — Grammar of type texts in TyTextSpec, unambiguity by mutual induction, format_type of TmplModel is in it.

## What is modelled, file by file

| Go file (internal/ unless said) | modelled in | not modelled |
|---|---|---|
| driver.go (root), conn.go, stmt_action.go, stmt.go | ScriptModel (scripts, temporary objects, actions), TxModel (transactions, table of open databases), ParamModel (arguments of a statement), CrashModel (killed processes), PrepModel (Prepare, errors, results, explain and auto index mode; with error.go and result.go) | goroutine preemption inside one critical section; CREATE TABLE AS type conversion |
| rows.go | ScriptModel (Close), IntModel and TimeTextModel (numbers and timestamps), RowsModel (Next with assignValue, assignInterfaceValue for the types of RowsModel) | assignment to destinations other than interfaces (never used by Next) |
| catalog.go, spec.go, name_path.go | CatalogModel, PersistModel, TreeModel, NameModel, UdfModel, TmplModel (ANY TYPE arguments; the analyser is a parameter), RaceModel (the mutex and the accesses outside it), DmlModel (CREATE TABLE as SQLite gets it), CtasModel (CREATE TABLE AS SELECT: declared types and values), ViewModel (views over tables and views) , SpecTextModel (types and specs as JSON texts, the catalog table) | |
| wildcard_table.go | WildModel | column types |
| analyzer.go, formatter.go | GapModel (TABLESAMPLE, PIVOT, UNPIVOT), ArrSubModel (ARRAY subqueries), OverModel (which OVER a function gets), ClauseModel (clauses that are not looked at), MergeModel (MERGE), QueryModel (columns, calls, subqueries, table/join/filter/project/limit/order/aggregate/array/set operation scans in any nesting, DELETE, UPDATE), WithModel (WITH of a statement around them), DmlModel (INSERT, constraints under INSERT/UPDATE/DELETE), LogicModel (CASE, IF, ...), WindowModel (OVER), ParamModel (parameters), GroupModel (keys), ScanModel (set operations, ORDER BY, LIMIT, grouping sets, UNNEST, IN, WITH, each by itself) | WITH inside a subquery (recursive WITH is refused by the analyzer: the feature is off), PIVOT |
| encoder.go, decoder.go, codec.go | CodecModel, ParamModel, TimeTextModel, DateModel (literals), RowsModel (CastValue within a kind, valueFromGoReflectValue), ConvertModel (CastValue between kinds) | map keys that are not strings |
| value.go, nested calls (function.go) | ValueModel, NestModel (ARRAY, STRUCT, fields and subscripts of any depth with SQLite in between), CastModel, ClockTextModel, NumericModel, IntervalModel, ConvertModel (the To... methods) | ToString of arrays, structs and floats, ToJSON of what JsonModel leaves out and SetString on unusual texts are parameters of ConvertModel; SafeValue's text, JSON values' comparison |
| function.go, function_bind.go | LogicModel, BitsModel, CastModel, LikeModel, ArrayFnModel, PartModel, TsArrayModel (EXTRACT from INTERVAL); the binders of each area | |
| function_register.go | RegisterModel | |
| function_math.go | IntModel, ExtremeModel, MathModel | RAND; the values of the transcendental functions and of gonum scalar.Round (section variables); NUMERIC arguments (their conversion to float64 is a variable) |
| function_string.go | StrModel, EncModel, TrimModel, Utf8Model, RegexModel (REGEXP_*, INITCAP, SOUNDEX), TextModel (CHR, ASCII, UNICODE, UPPER, LOWER, COLLATE, NORMALIZE, CONTAINS_SUBSTR) | the tables of unicode, norm and collate (variables) |
| function_array.go | ArrayFnModel, TsArrayModel (GENERATE_TIMESTAMP_ARRAY) | |
| function_date.go, function_datetime.go, function_time.go, function_timestamp.go | DateModel, PartModel, CalendarModel, InstantModel, NowModel (CURRENT_*) | |
| function_time_parser.go | TimeFmtModel | non-ASCII formats |
| function_interval.go | IntervalModel | text of an INTERVAL |
| function_format.go | FormatModel | the text of floats, JSON and %T; non-ASCII formats |
| function_net.go | NetModel, MiscModel (HOST, PUBLIC_SUFFIX, REG_DOMAIN) | |
| function_aggregate.go, function_aggregate_option.go | AggModel, ApproxModel, ConcatModel | the statistics (gonum), sketch (go-hll) and hash (murmur3) libraries, which are parameters; ToFloat64 of NUMERIC arguments |
| function_window.go, function_window_option.go | WindowModel, WinAggModel (percentiles), WinStatModel (statistics) | NUMERIC percentiles; the computations of gonum (parameters) |
| util.go | ZoneModel, PartModel | |
| function_json.go | JsonModel, MiscModel (fields and subscripts) | what a path finds |
| function_javascript.go | JsModel (with the js case of newFunctionSpec and bindEvalJavaScript) | ENUM, BIGNUMERIC, INTERVAL and GEOGRAPHY results; conversions that throw |
| function_hash.go, function_numeric.go | MiscModel | the hash functions (parameters); the BIGNUMERIC flag; SetString on texts other than plain decimals and fractions |
| function_security.go, node.go, context.go (except WithCurrentTime: NowModel) | | not modelled |

## Models of code outside /repo

The properties are about go-zetasqlite on top of Go's library and SQLite, so these are part of what
is trusted.  Each is written out in the model from its documentation, except the ones marked *any*,
which are section variables: the theorem holds for every behaviour.

| what | where |
|---|---|
| Go integers: 64-bit wrap, truncated division, panics on negative shift counts | GoBase, BitsModel |
| UTF-8 decoding, `strings` and `bytes` searching | Utf8Model |
| strconv, `%0nd`, `%d` | DecModel |
| encoding/hex, base64, base32 | EncModel |
| time: calendar, time.Date with carry, ISO week, Unix | CalendarModel, InstantModel |
| time.Location: a function from instants to offsets (*any*; named where the theorem needs a fixed one) | PartModel |
| time.LoadLocation (*any*) | ZoneModel |
| time.Format/Parse: the layouts named in ClockTextModel; `%c` and zone names (*any*) | ClockTextModel, TimeFmtModel |
| float64(int64) as rounding to 53 bits; no other float arithmetic | IntModel |
| big.Rat as Q in lowest terms | CastModel |
| JSON as trees; Unmarshal after Marshal | CodecModel |
| go-json: a JSON text is what RFC 8259 says; paths and Compact (*any*) | JsonSpec, JsonModel |
| strconv.Quote, for UTF-8 strings and any unicode.IsPrint; fmt.Sprint of whole float64 values below 2^53 | JsonModel |
| goja: running a program, ECMAScript conversions, Export (*any*; what ECMAScript says of a few conversions is the record `ecmascript` in JsSpec) | JsModel |
| regexp for LIKE and wildcard names | LikeModel, WildModel |
| regexp for the REGEXP functions: the list of matches (*any*), templates (Expand) | RegexModel |
| sort.Slice: some permutation that is sorted | AggModel, WindowModel |
| net, net/netip: text of addresses | NetModel |
| net/url, idna, the public suffix list, md5, sha, farm, json paths (*any*); the one regular expression of publicSuffix | MiscModel |
| math: Floor, Ceil, Trunc, Ldexp, Signbit; every other function and gonum's Round (*any*) | MathModel |
| database/sql and the SQLite driver: order of calls, parameter numbering, checks on the arguments of prepared statements | TxModel, ParamModel, ScriptModel, PrepModel |
| SQLite's grammar of CREATE INDEX with an unquoted index name | PrepSpec |
| SQLite: tables as lists of rows, upsert, DELETE, UPDATE, CREATE/DROP, scoping of column names, grouping by equal keys, aggregate Step/Done | PersistModel, ScriptModel, MergeModel, QueryModel, GroupModel, AggModel |
| ZetaSQL: the resolved tree is an input (*any*) | QueryModel, MergeModel |

## Assumptions of the theorems

`Print Assumptions` answers `Closed under the global context` for every theorem named in
MANIFEST.json: no axiom, of the standard library or otherwise, is used by any of them.  (coqchk
also lists the seven constants of `Coq.ssr.ssrunder`, a file of the standard library loaded by other
libraries; no theorem depends on them.)

## Testing the theorems

`seeded/LOG.jsonl` has one line for each wrong edit of a model that was tried: the definition, the
edit, the claim it breaks, the theorems that failed to prove, and the theorems tightened when
none did.
Where a line lists one claim only, mostly the property files of that claim were
rebuilt, so other theorems may also fail under the edit.

