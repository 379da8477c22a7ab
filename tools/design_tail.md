## What is modelled, file by file

| Go file (internal/ unless said) | modelled in | not modelled |
|---|---|---|
| driver.go (root), conn.go, stmt_action.go, stmt.go | ScriptModel (scripts, temporary objects, actions), TxModel (transactions, table of open databases), ParamModel (arguments of a statement), CrashModel (killed processes), PrepModel (Prepare, errors, results, explain and auto index mode; with error.go and result.go) | goroutine preemption inside one critical section; CREATE TABLE AS type conversion |
| rows.go | ScriptModel (Close), IntModel and TimeTextModel (numbers and timestamps), RowsModel (Next with assignValue, assignInterfaceValue for the types of RowsModel) | assignment to destinations other than interfaces (never used by Next) |
| catalog.go, spec.go, name_path.go | CatalogModel, PersistModel, TreeModel, NameModel, UdfModel, TmplModel (ANY TYPE arguments; the analyser is a parameter), RaceModel (the mutex and the accesses outside it), DmlModel (CREATE TABLE as SQLite gets it), CtasModel (CREATE TABLE AS SELECT: declared types and values), ViewModel (views over tables and views) , SpecTextModel (types and specs as JSON texts, the catalog table) | |
| wildcard_table.go | WildModel | column types |
| analyzer.go, formatter.go | GapModel (TABLESAMPLE, PIVOT, UNPIVOT), ArrSubModel (ARRAY subqueries), OverModel (which OVER a function gets), ClauseModel (clauses that are not looked at), MergeModel (MERGE), QueryModel (columns, calls, subqueries, table/join/filter/project/limit/order/aggregate/array/set operation scans in any nesting, DELETE, UPDATE), WithModel (WITH of a statement around them), DmlModel (INSERT, constraints under INSERT/UPDATE/DELETE), LogicModel (CASE, IF, ...), WindowModel (OVER), ParamModel (parameters), GroupModel (keys), ScanModel (set operations, ORDER BY, LIMIT, grouping sets, UNNEST, IN, WITH, each by itself) | WITH inside a subquery (recursive WITH is refused by the analyzer: the feature is off), PIVOT |
| encoder.go, decoder.go, codec.go | CodecModel, ParamModel, TimeTextModel, DateModel (literals), RowsModel (CastValue within a kind, valueFromGoReflectValue), ConvertModel (CastValue between kinds) | map keys that are not strings |
| value.go, nested calls (function.go) | ValueModel, NestModel (ARRAY, STRUCT, fields and subscripts of any depth with SQLite in between), CastModel, ClockTextModel, NumericModel, IntervalModel, ConvertModel (the To... methods) | ToString of arrays, structs and floats, ToJSON of what JsonModel leaves out and SetString on unusual texts are parameters of ConvertModel; SafeValue's text, JSON values' comparison |
| function.go, function_bind.go | LogicModel, BitsModel, CastModel, LikeModel, ArrayFnModel, PartModel, TsArrayModel (EXTRACT from INTERVAL); the binders of each area | |
| function_register.go | RegisterModel | |
| function_math.go | IntModel, ExtremeModel, MathModel | RAND; the values of the transcendental functions and of gonum scalar.Round (section variables); NUMERIC arguments (their conversion to float64 is a variable) |
| function_string.go | StrModel, EncModel, TrimModel, Utf8Model, RegexModel (REGEXP_*, INITCAP, SOUNDEX), TextModel (CHR, ASCII, UNICODE, UPPER, LOWER, COLLATE, NORMALIZE, CONTAINS_SUBSTR) | the tables of unicode, norm and collate (variables) |
| function_array.go | ArrayFnModel, TsArrayModel (GENERATE_TIMESTAMP_ARRAY) | |
| function_date.go, function_datetime.go, function_time.go, function_timestamp.go | DateModel, PartModel, CalendarModel, InstantModel, NowModel (CURRENT_*) | |
| function_time_parser.go | TimeFmtModel | non-ASCII formats |
| function_interval.go | IntervalModel | text of an INTERVAL |
| function_format.go | FormatModel | the text of floats, JSON and %T; non-ASCII formats |
| function_net.go | NetModel, MiscModel (HOST, PUBLIC_SUFFIX, REG_DOMAIN) | |
| function_aggregate.go, function_aggregate_option.go | AggModel, ApproxModel, ConcatModel | the statistics (gonum), sketch (go-hll) and hash (murmur3) libraries, which are parameters; ToFloat64 of NUMERIC arguments |
| function_window.go, function_window_option.go | WindowModel, WinAggModel (percentiles), WinStatModel (statistics) | NUMERIC percentiles; the computations of gonum (parameters) |
| util.go | ZoneModel, PartModel | |
| function_json.go | JsonModel, MiscModel (fields and subscripts) | what a path finds |
| function_javascript.go | JsModel (with the js case of newFunctionSpec and bindEvalJavaScript) | ENUM, BIGNUMERIC, INTERVAL and GEOGRAPHY results; conversions that throw |
| function_hash.go, function_numeric.go | MiscModel | the hash functions (parameters); the BIGNUMERIC flag; SetString on texts other than plain decimals and fractions |
| function_security.go, node.go, context.go (except WithCurrentTime: NowModel) | | not modelled |

## Models of code outside /repo

The properties are about go-zetasqlite on top of Go's library and SQLite, so these are part of what
is trusted.  Each is written out in the model from its documentation, except the ones marked *any*,
which are section variables: the theorem holds for every behaviour.

| what | where |
|---|---|
| Go integers: 64-bit wrap, truncated division, panics on negative shift counts | GoBase, BitsModel |
| UTF-8 decoding, `strings` and `bytes` searching | Utf8Model |
| strconv, `%0nd`, `%d` | DecModel |
| encoding/hex, base64, base32 | EncModel |
| time: calendar, time.Date with carry, ISO week, Unix | CalendarModel, InstantModel |
| time.Location: a function from instants to offsets (*any*; named where the theorem needs a fixed one) | PartModel |
| time.LoadLocation (*any*) | ZoneModel |
| time.Format/Parse: the layouts named in ClockTextModel; `%c` and zone names (*any*) | ClockTextModel, TimeFmtModel |
| float64(int64) as rounding to 53 bits; no other float arithmetic | IntModel |
| big.Rat as Q in lowest terms | CastModel |
| JSON as trees; Unmarshal after Marshal | CodecModel |
| go-json: a JSON text is what RFC 8259 says; paths and Compact (*any*) | JsonSpec, JsonModel |
| strconv.Quote, for UTF-8 strings and any unicode.IsPrint; fmt.Sprint of whole float64 values below 2^53 | JsonModel |
| goja: running a program, ECMAScript conversions, Export (*any*; what ECMAScript says of a few conversions is the record `ecmascript` in JsSpec) | JsModel |
| regexp for LIKE and wildcard names | LikeModel, WildModel |
| regexp for the REGEXP functions: the list of matches (*any*), templates (Expand) | RegexModel |
| sort.Slice: some permutation that is sorted | AggModel, WindowModel |
| net, net/netip: text of addresses | NetModel |
| net/url, idna, the public suffix list, md5, sha, farm, json paths (*any*); the one regular expression of publicSuffix | MiscModel |
| math: Floor, Ceil, Trunc, Ldexp, Signbit; every other function and gonum's Round (*any*) | MathModel |
| database/sql and the SQLite driver: order of calls, parameter numbering, checks on the arguments of prepared statements | TxModel, ParamModel, ScriptModel, PrepModel |
| SQLite's grammar of CREATE INDEX with an unquoted index name | PrepSpec |
| SQLite: tables as lists of rows, upsert, DELETE, UPDATE, CREATE/DROP, scoping of column names, grouping by equal keys, aggregate Step/Done | PersistModel, ScriptModel, MergeModel, QueryModel, GroupModel, AggModel |
| ZetaSQL: the resolved tree is an input (*any*) | QueryModel, MergeModel |

## Assumptions of the theorems

`Print Assumptions` answers `Closed under the global context` for every theorem named in
MANIFEST.json: no axiom, of the standard library or otherwise, is used by any of them.  (coqchk
also lists the seven constants of `Coq.ssr.ssrunder`, a file of the standard library loaded by other
libraries; no theorem depends on them.)

## Testing the theorems

`seeded/LOG.jsonl` has one line for each wrong edit of a model that was tried: the definition, the
edit, the claim it breaks, the theorems that failed to prove, and the theorems tightened when
none did.
Where a line lists one claim only, mostly the property files of that claim were
rebuilt, so other theorems may also fail under the edit.
