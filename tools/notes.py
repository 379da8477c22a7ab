NOT_APPLICABLE = {}
NOTES = {
"C01": "All reachable name paths, all references.",
"C02": "All reachable name paths with a maximum set, all non-empty references.",
"C03": "Atomicity for all states; bound for all call sequences after the maximum is set that stay out of INFORMATION_SCHEMA.",
"C04": "Proved when the reference's first component is not a component of the name path; refuted otherwise (a table named like its dataset).",
"C05": "Proved for components without '_'; refuted in general (a_b.c and a.b_c share one stored name).",
"C06": "Live objects, order, presence and failing DROP for all histories; the definition returned is proved for histories without replacement and refuted with one (an unrelated DROP brings the replaced definition back).",
"C07": "Refuted for every replacement of a live object (analysis and function bodies keep the first definition until a DROP); partial: CREATE after DROP.",
"C08": "Proved for all creation orders of equal-length paths, case-insensitive; refuted for unequal lengths, which the property excludes.",
"C09": "All histories with restarts and all row orders, when no name is used for both a table and a function; refuted otherwise.",
"C10": "All interleavings without a sync query between stamp and commit; refuted otherwise (never becomes visible), and DROPs are never observed.",
"C84": "Proved for references spelled with the full path; refuted for abbreviated ones.",
"C11": "Refuted in every state: DROP ... IF EXISTS of a name missing from the catalog always fails; existing tables drop correctly.",
"C12": "Order, stopping point and independence from the rest of the script proved for all scripts and failure points (Exec and Query); the last-outcome clause holds for scripts without temporary objects and is refuted for CREATE TEMP TABLE x; DROP TABLE x.",
"C14": "Closing the rows of a successful Query; refuted when Query fails (no clean-up at all).",
"C15": "All creating scripts, all failure points, when temporary and OR REPLACE names are new; refuted otherwise (a failing CREATE TEMP TABLE t drops the existing t).",
"C16": "Successful scripts without views or temporary objects under an empty name path; refuted for views and for functions outside the name path (nil entry, or a panic).",
"C19": "All scripts without OR REPLACE; refuted with it (the table is dropped by Prepare).",
"C85": "Undotted references under an empty name path; refuted for d.t, which empties table t.",
"C17": "All histories of calls, including failing Begin/Commit/Rollback and stale handles.",
"C18": "Transactions without DDL; refuted for every DROP TABLE and CREATE TABLE (the in-memory catalog is not rolled back).",
"C20": "All interleavings of any number of goroutines, no deadlock; refuted for :memory:, where connections share the catalog but not the tables.",
"C21": "Every reference gets the last argument of its name, any order, case or extra arguments; repeated uses agree.",
"C22": "Exact offsets proved: only CREATE TABLE statements advance; holds after those, refuted for any two other statements with question marks.",
"C86": "Too few arguments is an error; refuted for a misspelt name, which silently binds NULL.",
"C23": "Simultaneous substitution proved for @-free arguments and names no earlier of which is a prefix of a later; refuted for a/ab and for arguments mentioning parameters (f(x,y)=g(y,x)).",
"C24": "DELETE, INSERT, symmetric UPDATE proved for equal layouts; refuted: BY SOURCE never acts, AND conditions ignored, NULL keys, asymmetric updates, different columns, table-name substring swaps target.",
"C25": "Refuted for every failure after the first statement; success and first-statement failure leave nothing behind.",
"C29": "Right exactly for a process whose zone offset is in [0, 24h); west of Greenwich every literal is the day before.",
"C58": "MONTH and YEAR proved exactly; QUARTER ignores the count (right only for 1) and DATE_SUB rejects it.",
"C59": "WEEK and WEEK(day), MONTH, YEAR, ISOYEAR proved exactly, antisymmetry for every part; DAY right iff at most 106752 days apart; ISOWEEK refuted across years; QUARTER not implemented.",
"C60": "DAY, WEEK, WEEK(day), MONTH, QUARTER, YEAR proved exactly with the three laws; ISOYEAR right iff January 1st of the ISO year is not Friday or Saturday; ISOWEEK right for no date.",
"C61": "YEAR, MONTH, WEEK proved exactly; WEEK(day), ISOWEEK, ISOYEAR refuted with exact characterisations; QUARTER not implemented.",
"C62": "Exact for offsets in [0, 24h) and at most 106751 days from 1970; refuted elsewhere.",
"C63": "All parts but QUARTER proved; QUARTER wrong exactly on Apr 1 and Jul 1 of common years and Sep 30 of leap years.",
"C87": "ISOYEAR and ISOWEEK proved; WEEK refuted with the exact set of days.",
"C31": "+,-,* are right exactly when the result fits and silently wrong otherwise; DIV is right except -2^63 DIV -1.",
"C90": "Exact below 2^53 (the float64 detour); wrong above and overflow is never NULL.",
"C32": "Total order for every scalar type except INTERVAL (all comparisons fail, collation inconsistent). NaN is outside the order, as in SQL.",
"C33": "Proved for values without NULLs and without two equal field names at any nesting; a NULL element panics and unnamed struct fields are not all compared.",
"C36": "Full three-valued truth tables for any number of operands.",
"C37": "Right unless no element matches and the list holds a NULL; UNNEST form right for integers below 2^53 without NULLs.",
"C38": "Comparisons and arithmetic proved; IS TRUE/FALSE and BETWEEN of NULL refuted. LIKE's NULL rule is in the LIKE model.",
"C39": "CASE, IF, IFNULL, and COALESCE of error-free operands; COALESCE evaluates all operands, NULLIF(x, NULL) panics.",
"C42": "Bitwise operators, left shift, right shift of non-negative words and BIT_COUNT proved for all words. Refuted: >> of a negative word keeps the sign; a negative count panics.",
"C43": "Proved for every non-empty list of mutually comparable values (numbers, strings, bytes, dates and times). Refuted for INTERVAL, which cannot be compared.",
"C44": "Proved for every sorted boundary array of comparable values and for INT64 boundaries below 2^53. Refuted above: array elements reach the function as float64.",
"C45": "Proved for every int64 start, end and non-zero step such that the element after the last still fits in int64 (and start <> end for negative steps). Refuted: beyond that the sum wraps and the array is wrong or the call never returns; step 0 gives [] or never returns; start = end with a negative step gives [].",
"C46": "Proved for every array and subscript at the level of the functions, and end to end for INT64 elements below 2^53. Refuted above 2^53: the elements reach the function as float64.",
"C47": "Proved for every list of non-NULL arrays.",
"C92": "DAY and WEEK proved for all dates and steps; MONTH and YEAR proved for start days up to the 28th. Refuted: later start days drift, QUARTER steps are days, step 0 gives NULL, start = end with a negative step gives [].",
"C34": "Proved for every expression of NUMERIC function calls and for every interleaving of aggregate steps. Refuted: GENERATE_ARRAY on NUMERIC repeats one value; a RANGE frame with a NUMERIC key changes the key it searches for and loses rows.",
"C35": "Exact: NUMERIC to INT64 is right iff the value is an integer or plus or minus one half; INT64 to BOOL is right iff the value is 0 or 1 (others fail).",
"C91": "Proved that the cast truncates and exactly when that is the rounding; refuted for fractions of one half or more and for NaN, infinities and out-of-range values.",
"C93": "Sums and differences of nine-digit values stay nine-digit and print faithfully; refuted for quotients and products, which are kept unrounded.",
"C94": "Round trip proved for all int64; accepted language proved for strings without 0x. Refuted: the empty string is 0, underscores are accepted in hexadecimal.",
"C95": "Round trip and exact accepted set proved; it is not the documented one: '' and 't' are accepted, 'tRue' is refused.",
"C28": "Proved for every year 0-9999 and every valid combination of fields.",
"C30": "Converting back proved for all instants; the text is a decimal number of seconds exactly when the microseconds are 0 or at least 100000 (characterised, refuted otherwise).",
"C50": "Holds for BYTES and ASCII STRINGs; positions are counted in characters but the slice is taken in bytes, so any text starting with a multi-byte character is cut inside it (refuted universally).",
"C51": "Holds for STRING with a non-empty pad; BYTES pads not shorter than the gap, negative LPAD lengths and empty pads panic (refuted universally).",
"C52": "Holds for distinct ASCII sources none of which is an earlier target; replacement is sequential and works on bytes, refuted for chains and multi-byte characters.",
"C55": "STRPOS counts bytes: exact iff for the position; two-argument INSTR always fails, position = length fails, negative positions are wrong.",
"C97": "REPLACE proved for a non-empty search text; an empty one inserts the new text everywhere; REPEAT panics on negative counts.",
"C56": "Modelled over a proved UTF-8 decoder.",
"C54": "STRING and BYTES; the cut is characterised by a relation with a unique solution.",
"C96": "Character level for STRING, byte level for BYTES.",
"C98": "Character level, every list of texts.",
"C53": "All encodings proved; CODE_POINTS_TO_STRING drops NUL characters (exact iff, refuted for every text containing one).",
"C99": "Every byte string.",
"C100": "Years outside 0..9999 are outside the model of Format.",
"C101": "Exact equivalence with an independent grammar for all strings.",
"C26": "JSON is modelled as a tree with the effect of Marshal/Unmarshal on leaves written out. Refuted: INT64 of magnitude over 2^53 inside arrays/structs lose digits, text that is not UTF-8 is altered, NaN becomes NULL, NaN/Inf inside arrays fail. INTERVAL is not modelled; sub-microsecond parts and years outside 0..9999 are excluded.",
"C27": "For every byte string as layout; strconv.Quote is modelled for ASCII, which base64 is.",
"C102": "For all well-formed strings and sets.",
"C103": "TRIM with an explicit ASCII set is proved. Refuted: LTRIM/RTRIM use the base64 text of a BYTES set; the default set is the space only. Bytes above 127 are not modelled.",
"C40": "Any function table and map order. Refuted for six names of this program (safe_add, safe_subtract, safe_multiply, safe_divide, safe_array_at_offset, safe_array_at_ordinal), where the order of a Go map decides between two functions.",
"C41": "Exact on text without newlines and patterns without _. Refuted: _ only matches itself, % never crosses a newline, NULL gives FALSE. Go's regexp is modelled on the expressions LIKE builds; \\ escapes of the documented language are not in the statement.",
"C48": "Refuted outside 0..2^32-1: no integer is an error, it is taken modulo 2^32. The round trip and the byte order are proved in range; the direction from bytes is C104.",
"C69": "Refuted: an INT64 sum out of range wraps around silently, a NaN makes MAX depend on the row order, and a FLOAT64 SUM depends on the row order. AVG over INT64 proved as the FLOAT64 quotient when the sum is in range; what holds fully is C106, C107 and C108.",
"C70": "BIT_AND is right on every non-empty group. BIT_OR forgets everything so far once the result so far is -1, BIT_XOR once it is 1, and a group without values gives -1, -1 and 1 instead of NULL.",
"C71": "For every aggregate function; also as a general theorem for any value type whose text is injective.",
"C72": "Proved for keys of INT64 below 2^53, STRING and FLOAT64, mixed and with directions, under the contract of sort.Slice. Refuted: date and time keys are ignored, NUMERIC keys compare as text, large INT64 keys tie, a NULL key hides later keys.",
"C73": "A STRING that is the JSON text of an option is taken for one: the call fails, crashes, or drops the row.",
"C110": "Refuted for the empty delimiter, which becomes a comma.",
"C111": "Refuted for a group without values: TRUE and FALSE instead of NULL.",
"C75": "Common hypotheses: ORDER BY keys are INT64 of up to 53 bits, BOOL as 0/1, well-formed STRING, finite FLOAT64, NUMERIC, BYTES, DATE, DATETIME or TIMESTAMP; PARTITION BY keys are INT64 of up to 53 bits or STRING (without underscore if there are several); no argument has the text of a JSON object; sort.Slice is any sort satisfying its contract. The frame theorem needs the end not more than one row before the start; an end further before it panics (slice bounds), and offsets that do not fit int64 wrap.",
"C76": "Common hypotheses: ORDER BY keys are INT64 of up to 53 bits, BOOL as 0/1, well-formed STRING, finite FLOAT64, NUMERIC, BYTES, DATE, DATETIME or TIMESTAMP; PARTITION BY keys are INT64 of up to 53 bits or STRING (without underscore if there are several); no argument has the text of a JSON object; sort.Slice is any sort satisfying its contract. Default frame: exact for one ascending key; descending, several keys, NULL keys and CURRENT ROW .. UNBOUNDED FOLLOWING are refuted.",
"C77": "Common hypotheses: ORDER BY keys are INT64 of up to 53 bits, BOOL as 0/1, well-formed STRING, finite FLOAT64, NUMERIC, BYTES, DATE, DATETIME or TIMESTAMP; PARTITION BY keys are INT64 of up to 53 bits or STRING (without underscore if there are several); no argument has the text of a JSON object; sort.Slice is any sort satisfying its contract. Refuted for keys joined with underscores, INT64 keys beyond 53 bits (sent as JSON numbers) and NULL keys.",
"C78": "Common hypotheses: ORDER BY keys are INT64 of up to 53 bits, BOOL as 0/1, well-formed STRING, finite FLOAT64, NUMERIC, BYTES, DATE, DATETIME or TIMESTAMP; PARTITION BY keys are INT64 of up to 53 bits or STRING (without underscore if there are several); no argument has the text of a JSON object; sort.Slice is any sort satisfying its contract. RANK and DENSE_RANK: one INT64 key, descending or positive. Refuted: an ascending key <= 0 has rank 0; a STRING key that is not a number makes them fail. ROW_NUMBER is C113.",
"C79": "Common hypotheses: ORDER BY keys are INT64 of up to 53 bits, BOOL as 0/1, well-formed STRING, finite FLOAT64, NUMERIC, BYTES, DATE, DATETIME or TIMESTAMP; PARTITION BY keys are INT64 of up to 53 bits or STRING (without underscore if there are several); no argument has the text of a JSON object; sort.Slice is any sort satisfying its contract. Refuted: the default of LEAD/LAG replaces a NULL value of an existing row; LEAD by an offset near 2^63 panics; NTH_VALUE never returns the last row of the frame and panics for n = 0. FIRST_VALUE and LAST_VALUE are C117.",
"C80": "Common hypotheses: ORDER BY keys are INT64 of up to 53 bits, BOOL as 0/1, well-formed STRING, finite FLOAT64, NUMERIC, BYTES, DATE, DATETIME or TIMESTAMP; PARTITION BY keys are INT64 of up to 53 bits or STRING (without underscore if there are several); no argument has the text of a JSON object; sort.Slice is any sort satisfying its contract. NTILE(n) is right when the partition has at most n+1 rows; with n+2 or more the last row gets a bucket beyond n.",
"C112": "Common hypotheses: ORDER BY keys are INT64 of up to 53 bits, BOOL as 0/1, well-formed STRING, finite FLOAT64, NUMERIC, BYTES, DATE, DATETIME or TIMESTAMP; PARTITION BY keys are INT64 of up to 53 bits or STRING (without underscore if there are several); no argument has the text of a JSON object; sort.Slice is any sort satisfying its contract.",
"C113": "Common hypotheses: ORDER BY keys are INT64 of up to 53 bits, BOOL as 0/1, well-formed STRING, finite FLOAT64, NUMERIC, BYTES, DATE, DATETIME or TIMESTAMP; PARTITION BY keys are INT64 of up to 53 bits or STRING (without underscore if there are several); no argument has the text of a JSON object; sort.Slice is any sort satisfying its contract.",
"C114": "Common hypotheses: ORDER BY keys are INT64 of up to 53 bits, BOOL as 0/1, well-formed STRING, finite FLOAT64, NUMERIC, BYTES, DATE, DATETIME or TIMESTAMP; PARTITION BY keys are INT64 of up to 53 bits or STRING (without underscore if there are several); no argument has the text of a JSON object; sort.Slice is any sort satisfying its contract.",
"C115": "Common hypotheses: ORDER BY keys are INT64 of up to 53 bits, BOOL as 0/1, well-formed STRING, finite FLOAT64, NUMERIC, BYTES, DATE, DATETIME or TIMESTAMP; PARTITION BY keys are INT64 of up to 53 bits or STRING (without underscore if there are several); no argument has the text of a JSON object; sort.Slice is any sort satisfying its contract. Refuted: rows with NULL are counted in the divisor.",
"C116": "Common hypotheses: ORDER BY keys are INT64 of up to 53 bits, BOOL as 0/1, well-formed STRING, finite FLOAT64, NUMERIC, BYTES, DATE, DATETIME or TIMESTAMP; PARTITION BY keys are INT64 of up to 53 bits or STRING (without underscore if there are several); no argument has the text of a JSON object; sort.Slice is any sort satisfying its contract. Refuted: peers after the row are left out of CUME_DIST. PERCENT_RANK: one INT64 key, descending or positive (else RANK is 0 and the result negative).",
"C117": "Common hypotheses: ORDER BY keys are INT64 of up to 53 bits, BOOL as 0/1, well-formed STRING, finite FLOAT64, NUMERIC, BYTES, DATE, DATETIME or TIMESTAMP; PARTITION BY keys are INT64 of up to 53 bits or STRING (without underscore if there are several); no argument has the text of a JSON object; sort.Slice is any sort satisfying its contract. The formatter sends IGNORE NULLS also when no modifier is given, where SQL says RESPECT NULLS; the theorem is about explicit modifiers.",
"C118": "Permanent tables, no SQLite failure (a failing name check needs no such assumption). Refuted: CREATE TABLE IF NOT EXISTS ... AS SELECT fails when the table exists (the schema text of a query ignores the mode).",
"C119": "Holds for DML, TRUNCATE and queries under any SQLite failures. Refuted outside a transaction for CREATE OR REPLACE TABLE (the old table is gone), CREATE TABLE (the table stays without stored catalog entry) and MERGE (its first statement stays).",
"C13": "Quantifies over the statements that began to execute, the failing one included, as the specification's own relation defines them. Missing: SQLite failures during clean-up, for which it is false (witness), and temporary tables whose name a view holds.",
"C64": "TIMESTAMP_TRUNC is right in UTC and fixed-offset zones for all but the ISO parts; where clocks go back, the repeated hour is truncated an hour too early. DATETIME_TRUNC and TIME_TRUNC to SECOND clear the seconds, MILLISECOND drops the fraction, and DATETIME_TRUNC to a WEEK part keeps the time of day (each iff-characterised).",
"C65": "Conversions both ways, floor before 1970; the counts quantified are those of TIMESTAMP values 0001..9999.",
"C120": "Exact iff the distance fits a 64-bit number of nanoseconds (292 years); farther differences are all equal.",
"C121": "Exact iff the process's zone has the same offset at both ends; always exact with a fixed-offset process zone.",
"C123": "The code rounds away from zero.",
"C124": "Right iff the process's zone agrees with UTC.",
"C125": "Exact up to 292 years; beyond that never for units up to a second.",
"C127": "-HH:MM adds the minutes instead of subtracting them; offsets are found anywhere in a name.",
"C128": "Assumes of the time zone database that only UTC begins with UTC and that the empty name is UTC.",
"C130": "No field is checked.",
"C66": "The length is kept by JUSTIFY_DAYS always and by JUSTIFY_HOURS exactly when the minutes with the carried seconds are above -60 (function_interval.go:72 adds Hours/60 instead of Minutes/60); only one year is carried, so months stay above 11 for 1050 days and more. The text form of intervals (bigquery.IntervalValue, outside /repo) is not modelled.",
"C131": "Proved for the fields the functions receive; the text form of intervals is outside /repo.",
"C132": "Exact for every part: QUARTER and WEEK always fail, counts outside 32 bits wrap around.",
"C133": "Right exactly when the month reached has the day of the month; otherwise the result spills into the next month by the missing days.",
"C134": "Right exactly up to 106751 days; beyond that the result is 106751 days with the sign.",
"C135": "Right in zones with a fixed offset, and in general exactly when the offset is the same at both ends.",
"C74": "Exact for every type but TIMESTAMP, which groups by the second (Interface formats with RFC3339), and NaN, which joins NULL; STRUCT and ARRAY keys fail. Empty BYTES depend on the driver and are left out; INTERVAL and JSON keys are not modelled.",
"C136": "BYTES, FLOAT64 without NaN and mixed tuples are in C74's theorem.",
"C82": "Proved: every table the prefix names is read; which tables are read, exactly; in a catalog of one project the suffix and the columns. Refuted: tables that only contain the pattern are read too (unanchored regular expression, dots match anything), a table named exactly the prefix makes the query fail, tables of two projects get wrong suffixes, and a path in separate identifiers fails or panics. Not modelled: names with other regular expression characters.",
"C83": "Names are compared as SQLite does, without regard to the case of ASCII letters.",
"C138": "Holds when the columns of the statement have different names and, with UNNEST, none is called like a column of json_each (C246); else refuted.",
"C139": "Left-deep joins are right, a join on the right is not.",
"C140": "Refuted for LIMIT.",
"C141": "Refuted for every such subquery.",
"C142": "Refuted.",
"C67": "Proved for every format of %Y, %m, %d and characters, except 29 February where the year stands behind both the month and the day (read as 1 March, for every such format and year) and years below 1000 printed in front of a digit. The other date elements (%F, %D, %b, ...) are modelled but not in the round trip.",
"C68": "Exactly which texts are read and as what, for formats of %Y %m %d %H %I %M %S %p and characters. The characters of the format are not compared with the text, and days up to 31 are taken in every month.",
"C144": "Each element's exact condition; %z is modelled (seconds east of UTC, undocumented form) but has no theorem. %c and %Z are texts of Go's time package.",
"C145": "The text of the element is right; the character of the format behind it is lost when it is not at the end.",
"C146": "The exact condition of the panic. For FORMAT over the elements with a documented text, in years 0 to 9999.",
"C81": "%d with a written width up to 10000009 and an optional 0 prints the documented text. %' prints the documented text exactly for numbers >= 0 and negative ones whose number of digits is not a multiple of 3 (FORMAT(\"%'d\", -123456) is '-,123,456'), always ignoring the width; a width above 10000009 from * loses the number ('%!(NOVERB)…').",
"C150": "The formats of the theorem contain no other flag and no precision. Characters are bytes. %t for INT64 and STRING arguments.",
"C151": "Missing and mistyped arguments fail; left over ones are ignored. The condition is exact for formats without %t. Patterns that are literals may already be refused by the analyzer, which is not modelled.",
"C152": "Refuted: 0 gets no sign, the sign is put in front of the padding (FORMAT('%+5d', 42) is '+   42'), the space is printed before negative numbers too, - and # are refused.",
"C153": "n >= 1 is passed on; 0 is passed on as -1, all the digits; * is always refused. strconv.FormatFloat is a parameter.",
"C154": "Refuted for every string: the width is ignored, and with * the width itself is printed instead of the string.",
"C155": "The result is NULL exactly when an argument is NULL; %t and %T included.",
"C156": "Holds when no argument is FLOAT64 or NUMERIC; with one, a width above 2^48 panics in strings.Repeat. Parameters stand for strconv, go-json and Value.Format.",
"C157": "Exact condition for UNION ALL; a column the first input selects twice is read by name, so other inputs lose values; INTERSECT ALL and EXCEPT ALL are no SQLite syntax.",
"C158": "Set laws for any number of inputs; SQLite's compound SELECT is modelled as comparing stored values.",
"C159": "NaN is stored as NULL.",
"C160": "The engine's comparison is the specified lexicographic order, and it is transitive; SQLite is trusted to sort by it.",
"C161": "SQLite's LIMIT is modelled by its documentation.",
"C162": "SQLite takes a negative LIMIT as none and a negative OFFSET as 0.",
"C163": "Uses the exactness of zetasqlite_group_by keys (C136); no order of the rows is claimed.",
"C164": "UNNEST without an input scan; what becomes of integral floats from 2^53 is a parameter.",
"C165": "Stated for any treatment of large floats in JSON.",
"C166": "SQLite's IN is modelled over stored values.",
"C167": "Names are written unquoted, and SQLite sees later entries and the entry itself in an entry's text.",
"C49": "Addresses are byte lists of 4 or 16 bytes; other lengths are shown to be errors.",
"C88": "Go's time.Date is modelled by the proleptic Gregorian calendar of CalendarModel.",
"C104": "All byte strings, by length.",
"C106": "Counters are int64; hence fewer than 2^63 rows.",
"C107": "Values pairwise comparable in the sense of CompareSpec, which excludes NaN.",
"C108": "INT64 partial sums wrap and the total is exact when it is in range; NUMERIC is an unbounded rational in the code.",
"C109": "The order of the rows is the order in which SQLite steps the aggregate.",
"C122": "Stated against DATE_ADD and DATE_SUB, including when they fail.",
"C143": "Years 1000 to 9999: a shorter year is printed without padding, see c67_short_year_refuted.",
"C57": "Dates and results from 0001-01-01 to 9999-12-31.",
"C129": "Zones of fixed offset.",
"C147": "PARSE_TIME and PARSE_DATETIME; whole seconds; for a DATETIME the year not behind a 29 February.",
"C105": "Go's netip.ParseAddr is modelled for IPv4 texts.",
"C126": "Wall clocks of whole microseconds; fields in their documented ranges.",
"C148": "Whole seconds, as no element prints a fraction; formats without %I, which drops the half of the day.",
"C149": "Whole seconds, years 1000 to 9999, formats without %I, zone offsets of whole minutes below 100 hours; a 29 February needs the year first.",
"C172": "DATE, DATETIME and TIMESTAMP from year 0 on; TIMESTAMP text taken in UTC",
"C174": "what a path finds, and the text of numbers that are not whole or reach 2^53, are variables",
"C175": "what a path finds is a variable",
"C176": "the path library is a variable",
"C178": "the failing comparison stands for any use of the result",
"C137": "Analytic functions, WITH, LEFT JOIN UNNEST without ON (C245), grouping sets, and DISTINCT, ORDER BY and LIMIT inside an aggregate function are not part of this model of queries; values are NULL or integers, functions and aggregate functions are abstract.",
"C89": "DAY holds exactly up to 106752 days; beyond, DATE_DIFF saturates.",
"C181": "Exact for STRUCTs of STRING fields: every field shows the last value of its name.",
"C182": "NUMERIC, BYTES and TIMESTAMP, alone in a STRUCT.",
"C187": "driver.Valuer is never called: CheckNamedValue accepts every value.",
"C188": "The Go struct case; a map goes the same way.",
"C191": "Proved: the result is the wall clock of the machine's zone, so it is the one in UTC exactly where the offset is zero. Refuted for every instant with another offset.",
"C195": "Proved for structs with the same different names on both sides, one of them not empty. Refuted: a renamed field becomes NULL, unnamed structs are returned uncast.",
"C197": "Refuted for all byte strings but the empty one.",
"C198": "Proved for the plain decimals that a NUMERIC prints. Refuted: no text at all is rejected.",
"C200": "Refuted for every timestamp.",
"C201": "Refuted: every time of day is accepted as a DATE, every day as a TIME; one-digit months and hours are errors.",
"C189": "What big.Rat.SetString makes of texts other than plain decimals, and zone notations other than Z and +hh:mm, are arbitrary in the model.",
"C202": "False: a CREATE TABLE killed between its two calls leaves a table that the catalog does not list and that can never be created again, a DROP TABLE leaves the name of a table that is gone (c202_create_refuted, c202_drop_refuted). Proved: in a history of any number of killed processes every crash puts at most one name out of step, and a script that succeeds puts none. For scripts of CREATE TABLE, DROP TABLE, INSERT/UPDATE/DELETE, TRUNCATE and queries on lower-case table names.",
"C203": "For states in which the stored rows are those of tables with lower-case names (well_stored).",
"C204": "Succeeds for names the catalog lists. For a table that the catalog does not list (the crash of a CREATE TABLE) it fails, although it has dropped the table.",
"C205": "Holds for temporary functions. A temporary table stays in the file under its plain name, and every later CREATE TEMP TABLE of that name fails.",
"C206": "Holds for INSERT, UPDATE, DELETE and TRUNCATE. MERGE can be cut between its changes, and then no MERGE works any more; CREATE OR REPLACE TABLE can lose the old table without making the new one.",
"C207": "Proved for ASCII texts and for position 1. Otherwise the position is used as a byte offset after it was compared with the number of characters, and the result may not even be valid UTF-8 (c207_position_refuted).",
"C209": "Proved for ASCII texts and expressions without groups. With a group the position is that of the whole match; the position is counted in bytes.",
"C210": "REGEXP_INSTR and REGEXP_REPLACE do. REGEXP_CONTAINS compares the base64 texts of its arguments, REGEXP_EXTRACT and REGEXP_EXTRACT_ALL take the base64 text of the expression as the expression.",
"C211": "Proved for replacements without $, double backslashes and \\0 in which every reference is followed by a character that is not a digit. False otherwise: a reference at the end stays as ${1, \\0 and double backslashes stay as they are, $1 is taken as a reference, and a digit after a reference becomes part of its number.",
"C212": "REGEXP_REPLACE crashes on a replacement that ends in a backslash, REGEXP_INSTR on a negative occurrence_position; the others never do.",
"C214": "A tab, line feed, vertical tab, form feed or carriage return does not start a word.",
"C216": "Holds exactly for the times that an int64 of nanoseconds can hold, 1677 to 2262; any other time is shown a multiple of 2^64 nanoseconds away, without an error.",
"C218": "Holds without WithCurrentTime. With it the wall clock is the one of the process's zone, so the claim holds exactly when that zone's offset is 0 at that time.",
"C219": "Holds without WithCurrentTime. With it the formatter writes (zone, time) and the binders read (time, zone): every call with a zone fails, for every time from 1970 on whatever the zone, and for every time if the zone is not a number.",
"C220": "Each call reads the clock anew. Holds if the clock stands still; a query across midnight shows a date and a timestamp of different days.",
"C222": "The SQL kept by CREATE VIEW, CREATE FUNCTION and Prepare has the time of its own context in it, or a call that reads the clock if there was none. Holds if both contexts have the same time or the body does not ask for the time. Functions with templated arguments are formatted by the calling query and are not in this model.",
"C223": "The operators' resolved forms are ZetaSQL's; GoogleSQL does not offer them in every dialect. SQLite refuses both words (set_step).",
"C224": "Refuted, with a general theorem about the two columns and a witness against the meaning.",
"C225": "Refuted: HAVING FALSE returns one row for every table, and HAVING on an aggregate fails for every non-empty table.",
"C226": "Proved for goroutines without DROP TABLE, DROP VIEW and wildcard queries. Refuted otherwise: DROP reads c.tableMap before it takes the mutex (stmt_action.go:265) and a wildcard table iterates over it without the mutex (wildcard_table.go:150-154), so beside any CREATE some schedule reads the map while it is written, which Go's runtime aborts. Data races without such an abort (c.catalog, c.tables) are taken as sequentially consistent steps.",
"C227": "DROP replaces the analyzer's catalog by an empty one and adds the remaining tables one by one, under a mutex that FindTable does not take.",
"C229": "The statements sent to SQLite are not part of this model; OSync's rows are any list.",
"C230": "Progress, for every schedule; that every goroutine ends needs a fair scheduler, which is not modelled.",
"C231": "IsTemp only decides whether the spec is saved in zetasqlite_catalog (catalog.go:227); the table itself is a plain SQLite table until Cleanup drops it, so both the lookup and the table are there.",
"C232": "Proved.",
"C233": "Refuted for every CREATE TABLE and CREATE VIEW: Exec of the prepared statement always fails, because the slice of arguments is handed over as one argument; and with OR REPLACE preparing it has already dropped the old object.",
"C234": "Refuted for every such statement: Prepare returns a nil driver.Stmt without error, and database/sql panics when it is used.",
"C235": "Refuted for every statement: with a named argument neither Exec nor Query of a prepared statement succeeds. c235_direct: executed directly, the argument is accepted.",
"C236": "Proved for one statement; refuted for two: only the last is executed.",
"C237": "Proved for permanent functions; a temporary function stays registered, and the result is a nil driver.Result whose RowsAffected panics.",
"C238": "Proved for scripts that end in INSERT, UPDATE or DELETE; TRUNCATE and MERGE always report 0.",
"C239": "Proved. c239_no_panic assumes that reading the arguments does not panic.",
"C240": "Refuted for Exec: the error is always an ErrorGroup without Unwrap, so that nothing but the group itself is found. Proved for Query (errors of the arguments excepted).",
"C241": "Refuted: the first statement stays.",
"C242": "Proved for Query of one query. Exec runs the query itself, and Close of the rows panics when the script has created a temporary object.",
"C243": "c243_accepted_partial: the CREATE INDEX text is one exactly when the index name, which has no quotes, is a plain identifier. Otherwise CREATE TABLE fails and leaves a SQLite table that the catalog does not know.",
"C244": "Proved for direct queries without explain mode; on the rows of every prepared query it panics.",
"C247": "Values with subqueries are not covered; UPDATE and DELETE have them in C138.",
"C250": "TableSpec.SQLiteSchema returns before it looks at columns and key when there is a query.",
"C251": "Witness: UPDATE t SET id = id + 1 on the rows k and k+1 for any k. SQLite checks uniqueness after each row; rows are taken in storage order.",
"C252": "The names of key columns are written without quotes. Names with characters outside identifiers are taken as refused.",
"C257": "SQLite's column affinity and go-sqlite3's use of declared types are outside /repo and modelled from their documentation.",
"C262": "Missing: the empty delimiter, for which a comma is used.",
"C259": "The sum wraps around.",
"C264": "It divides by the number of rows of the frame, duplicates and NULLs included.",
"C266": "Missing: percentiles above 0 that fall on the first value, where the result is NULL (so for every percentile but 0 of a partition of one row).",
"C267": "PERCENTILE_DISC crashes.",
"C268": "Proved for f = 0 and for one row of INT64; 0 is returned whenever the greatest value is 0, and FLOAT64 values lose their fraction. Interpolation between two rows is modelled but nothing is proved of it.",
"C270": "Missing: names that begin another name and arguments whose text holds an @; refuted for f(a, ab): the second argument becomes the text of the first one followed by b.",
"C271": "Refuted for INT64 beyond 2^53 (rounded), NUMERIC (the argument is the text n/d, not a number, so all give the same value) and TIMESTAMP (fractions of a second are lost). TIME and BYTES are not claimed.",
"C272": "Refuted for every type but STRUCT: no such function can return NULL.",
"C275": "Refuted: an ARRAY function that returns null or anything but an array panics in a type assertion.",
"C276": "Refuted for every such code ending in a comment without a newline.",
"C278": "Refuted: the failure of SetString is ignored.",
"C279": "Refuted for every struct type.",
"C280": "Right for all steps whose nanoseconds fit 64 bits (292 years), except that equal ends with a negative step give an empty array. Longer steps wrap; c280_long_refuted says exactly when the array is still right.",
"C281": "The exact condition for a call that never returns is c281_hangs_refuted: a wrapped step that goes the wrong way or nowhere, e.g. INTERVAL 150000 DAY.",
"C282": "A NULL step panics in the binder; step 0 gives NULL.",
"C283": "The canonical form is what parsing the text of an interval gives; that text is not modelled.",
"C284": "Names that clash are C167; a WITH inside a subquery and WITH RECURSIVE are not modelled.",
"C285": "ToFloat64 is modelled for INT64 and FLOAT64 arguments.",
"C286": "Refuted: with exactly one row the result is a FLOAT64, whatever the library computes (gonum returns NaN); proved NULL without a row.",
"C287": "Refuted on all rows with a nonzero covariance: both call the same library function.",
"C288": "Refuted: of two pairs with the same first value the second is dropped; proved when no two different pairs share their first value.",
"C289": "The general theorem assumes that the texts of the distinct values differ; the INT64 and STRING theorems need no such premise.",
"C290": "Refuted: the rows are not sorted and NULLs are kept, so the first element is the first row's value; proved which values the ends are and that every element is the value of a row.",
"C291": "Refuted for n = 12, which gives 14 elements for all values; proved for n up to 11.",
"C292": "Both directions: every outcome described is possible.",
"C293": "Both directions; sums that overflow are C69.",
"C294": "Refuted: asking for more than there are is an error, equal NUMERIC values are separate entries, BYTES values end the process.",
"C295": "The laws of the sketch library are premises; c295_example shows a library that meets them.",
"C296": "Refuted: a NULL adds the hash 0, and the error of a refused precision is overwritten by the final return; proved for rows without NULL.",
"C298": "ROUND(x, NULL) converts the precision before testing for NULL: a nil dereference, for every x",
"C299": "LOG(x, y) is math.Ldexp(x, int(x)): y is never read; LOG(8, y) is 2048. LOG(x) = LN(x) holds",
"C300": "The second argument of TRUNC is ignored; one-argument TRUNC proved exact",
"C302": "SIGN(-0.0) is -1; SIGN(NaN) is 1 or -1. All other values proved",
"C303": "Exact characterisation: wrong precisely for a finite nonzero dividend and a divisor of -0.0",
"C305": "The operators and SAFE_ forms return an infinity for overflow, never an error or NULL",
"C306": "No function reports a domain error, whatever the library; only / can fail",
"C310": "All but NET.HOST and NET.IP_NET_MASK dereference a nil interface on NULL",
"C314": "Fractions are accepted: PARSE_NUMERIC of n/d is the number n/d for all n and d. Proved: the result is an error or a NUMERIC, never NULL",
"C315": "No rounding and no range check: every plain decimal is kept exactly, 0.0000000001 and 10^29 included",
"C318": "Refuted: every such number gives U+FFFD or the character of the number modulo 2^32.",
"C319": "Refuted for a first character outside ASCII: the first byte is returned. Holds for ASCII.",
"C321": "Refuted: UTF-8 letters change case, and byte sequences that are not UTF-8 never come back unchanged.",
"C322": "Refuted for all arguments: the function is a stub that returns NULL.",
"C323": "Refuted: COLLATE returns its argument, so texts that differ at all compare different; binary, '' and unicode:cs are errors.",
"C324": "The modes, NULL and ASCII text hold; refuted for characters that a normal form replaces by capital letters, because folding (lower case) comes first.",
"C325": "Refuted for NULL.",
"C326": "Holds for values that survive storage inside a STRUCT (CodecSpec.storable); refuted for INT64 of 2^53 and more.",
"C327": "Holds below 2^53 for ABS; refuted for every odd integer from 2^53 on.",
"C328": "Refuted: the FROM item is dropped, so a query of constants or COUNT( * ) has one row whatever the table. Queries that read a column or have a condition are errors.",
"C329": "Refuted: the clause is ignored; right only when the rows left out add up to 0.",
"C330": "Refuted: the clause is ignored; right exactly when it asks for what holds without it.",
"C332": "Refuted: the format is ignored.",
"C333": "Refuted: the parameters are ignored; the result is within them exactly if the argument was.",
"C334": "Refuted: the collation is ignored, texts are compared by bytes; right for small ASCII letters.",
"C335": "INT64 columns; ARRAY_AGG and COUNT. The orders are those of AggModel (C71, C105-C109).",
"C336": "Proved for all tables; the statistics library is a parameter.",
"C337": "Refuted: a NULL in the frame panics; the answer is right exactly if there is none.",
"C338": "Refuted: in a partition of one row POP is NULL, in a larger one a frame of one row is handed to the library and never NULL; right for SAMP in a partition of one row.",
"C339": "Refuted: with a NULL in the table the last row panics if the frame depends on the row or there is PARTITION BY, and if no row has both values every row is an error; right over the whole table with two or more pairs.",
"C340": "Refuted: DISTINCT is ignored; right exactly if the library gives the same without the repetitions.",
"C341": "Refuted: both call the same function, so not both are right unless the codeviation is 0.",
"C342": "Refuted: one of 13 types (or an array of it) is tried for all arguments together, so a body that needs different types is refused; exact characterisation proved.",
"C343": "Refuted: a call gets the type all tried types agree on, or else that of its arguments; right if the body has that type.",
"C344": "Refuted: refused always; right for equal types.",
"C345": "Refuted: the declared type is reported and the body is not coerced; right exactly if the body has the type by itself.",
"C346": "Refuted: a field without a name is written with empty quotes, which the analyser refuses; right for structs with names.",
"C348": "Refuted for every such group and frame: the result is the empty array.",
"C349": "Proved: the result is the value of the first row of the frame, so right where that is not NULL. Refuted: NULL whenever the first row of the frame has NULL.",
"C350": "Proved where no row of the table has NULL. Refuted: with one NULL anywhere in the table no row gets a result.",
"C352": "The resolved query is given: what the analyser finds in the catalogue after OR REPLACE is C07.",
"C354": "About the views SQLite stores; what the catalogue remembers is C06 and C07.",
"C355": "Indexes are literals; an index out of range is C46. An INT64 may be held as the equal FLOAT64 and a BOOL as 0 or 1 in between.",
"C356": "Refuted exactly: z is kept iff FLOAT64 keeps it; 2^53+1 is a witness. Below 2^53 it is C355.",
"C357": "Refuted for every BOOL expression: SQLite has no BOOL, so the function gets 0 or 1 and writes the number.",
"C358": "Refuted for both values.",
"C359": "Refuted: elements arrive as FLOAT64 and are written as fmt.Sprint writes these (1000000 as 1e+06); equal exactly where the two texts are.",
"C168": "About the value as it reaches the function: what becomes of BOOL and of INT64 in arrays on the way there is C357 and C359. For any unicode.IsPrint, float and interval text; FLOAT64, INTERVAL, dates and times excluded (C172); go-json's reading is taken as RFC 8259.",
"C361": "Refuted for every database and query: the table is dropped first, so a query of the table itself fails and its rows are lost (no transaction is around the two statements). Partial: with another table in the query the new table holds its rows, after any history; a failing query still loses the old table.",
"C331": "Refuted: the clause is ignored and NULL is first also with DESC. Partial: when NULLs are to come first; and rows with STRING keys come in the direction written.",
"C363": "go-json is outside /repo: its writer is modelled as documented, its reader as JsonSpec.denotes and members in order.",
"C364": "Refuted for all names SQLite reads as the same integer, such as 1 and 01: the column is declared STRING, which SQLite takes as NUMERIC, so both have one row; the first definition is lost and dropping the second removes it. Partial: names that do not begin like a number.",
"C365": "SQLite's rows of a subquery reach the aggregate in the order of the subquery, as in QueryModel; the alias the text does not have is an empty one in the model.",
"C366": "With the text of IGNORE NULLS the row is lost, with that of DISTINCT the query fails, with those of LIMIT and ORDER BY args[0] panics.",
"C367": "About which columns a function is written with; what it computes from them is WindowModel. Expressions of frame bounds are constants.",
"C368": "The inner scan clears the order columns of the whole statement, so the next function of the outer group has no ORDER BY, and its first group starts with the columns of the outer one. That the analyzer accepts such a query is an assumption: it is outside /repo and could not be run.",
"C369": "Proved against a grammar of type texts (shown unambiguous): for fields whose names need no escapes the text of a type is that type and no other, so a call is analysed with the types of its arguments. Refuted: a back quote or a backslash in a field's name is written as it is, so the text is another type. Fields without a name are C346.",
}
