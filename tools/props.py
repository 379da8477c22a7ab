#!/usr/bin/env python3
"""Source of /verif/properties.jsonl: run `python3 tools/props.py` in /verif to regenerate it."""
import json
P = []
def p(id, title, statement, quantifier, why, anchors):
    P.append(dict(id=id, title=title, statement=statement, quantifier=quantifier,
                  why_tests_cant=why, anchors=anchors))

# ---------------------------------------------------------------- names
p("C01", "Resolving a name is idempotent and extends the reference",
  "The path a table or function reference resolves to under a connection's name path ends with the written reference, is prefixed only by a leading part of the name path, and resolving the resolved path again gives the same path; so the fully qualified spelling of an object and the spelling that was resolved to it always denote the same object.",
  "every name path reachable through SetNamePath/AddNamePath/SetMaxNamePath, every reference of any number of components, any strings (dots and INFORMATION_SCHEMA included)",
  "the space of name paths, maxima and references is infinite and the special cases (dots inside a component, INFORMATION_SCHEMA, equal components) interact",
  ["internal/name_path.go:NamePath.mergePath", "internal/name_path.go:NamePath.normalizePath", "internal/name_path.go:NamePath.getMaxNum", "driver.go:SetNamePath"])
p("C02", "A maximum name path bounds every resolved name",
  "With SetMaxNamePath(n), a reference of at most n components (n+1 below INFORMATION_SCHEMA) never resolves to more than that many components, and a reference of exactly n components is used as written, ignoring the name path.",
  "all n > 0, all name paths, all references",
  "unbounded numbers and lengths; only a few lengths can be tried",
  ["internal/name_path.go:NamePath.mergePath", "internal/name_path.go:NamePath.getMaxNum", "driver.go:SetMaxNamePath"])
p("C03", "Name path setters are all-or-nothing and keep the bound",
  "SetNamePath and AddNamePath either install the (dot-split) path and report success, or report an error and leave the name path unchanged; in every history where the maximum is set before the paths and INFORMATION_SCHEMA is not used, the name path never exceeds the maximum and never holds a component with a dot.",
  "every finite sequence of SetMaxNamePath/SetNamePath/AddNamePath calls with any arguments",
  "histories are unbounded",
  ["internal/name_path.go:NamePath.setPath", "internal/name_path.go:NamePath.addPath", "internal/name_path.go:NamePath.setMaxNum"])
p("C04", "Unqualified names mean the object in the current name path",
  "With name path [project, dataset] and maximum 3, an unqualified table name t resolves to project.dataset.t.",
  "all project, dataset and table names",
  "a collision between a table name and a path component is needed to see the failure",
  ["internal/name_path.go:NamePath.mergePath"])
p("C05", "Distinct fully qualified names are distinct objects",
  "Two tables (or functions) with different fully qualified names never share storage: the name used for the SQLite object, the catalog map and the persisted catalog row is different.",
  "all pairs of different non-empty paths",
  "needs all pairs of names",
  ["internal/name_path.go:formatPath", "internal/spec.go:TableSpec.TableName", "internal/spec.go:FunctionSpec.FuncName", "internal/catalog.go:addTableSpec"])
# ---------------------------------------------------------------- catalog
p("C06", "The catalog is a map from names to definitions",
  "After any history of CREATE and DROP of tables and functions, looking up a name finds the definition given by the last CREATE of that name since its last DROP, and nothing if there is none; DROP of one object leaves every other table and function, and their order of creation, unchanged; a DROP that fails changes nothing.",
  "every finite history of CREATE/CREATE OR REPLACE/DROP over any names and definitions",
  "histories and catalog sizes are unbounded",
  ["internal/catalog.go:addTableSpec", "internal/catalog.go:deleteTableSpecByName", "internal/catalog.go:resetCatalog", "internal/catalog.go:addFunctionSpec", "internal/catalog.go:deleteFunctionSpecByName"])
p("C07", "CREATE OR REPLACE takes effect for later statements",
  "After CREATE OR REPLACE of an existing table or function, every later statement (on any connection to the same database) sees the new definition, and it stays in force after unrelated DROPs.",
  "every history containing a replacement",
  "depends on the whole later history, e.g. an unrelated DROP much later",
  ["internal/catalog.go:addTableSpec", "internal/catalog.go:addFunctionSpec", "internal/catalog.go:getFunctions", "internal/catalog.go:resetCatalog", "internal/analyzer.go:Analyze"])
p("C08", "Fully qualified references find their own table",
  "When every table has been created with the same number of path components, a reference spelled with the full path resolves to exactly that table, whatever other tables exist and in whatever order they were created.",
  "every finite set and creation order of tables with equal path lengths, every reference",
  "the sub-catalog tree is built recursively over all suffixes; collisions depend on the set of names and their order",
  ["internal/catalog.go:addTableSpecRecursive", "internal/catalog.go:existsTable", "internal/catalog.go:FindTable"])
p("C09", "Reopening a database gives back the same catalog",
  "After any history of successful DDL, a fresh process opening the database sees, for every name, the same kind and definition the writing process had for its non-temporary objects.",
  "every DDL history, every crash/reopen point between statements",
  "the reopen point and the history are unbounded",
  ["internal/catalog.go:Sync", "internal/catalog.go:saveTableSpec", "internal/catalog.go:saveFunctionSpec", "internal/catalog.go:loadTableSpec", "internal/catalog.go:DeleteTableSpec"])
p("C10", "Objects created by another process become visible",
  "Once another process has committed a CREATE, the next statement of this process sees the object.",
  "every interleaving of two processes' syncs, stamps and commits",
  "needs a particular interleaving of timestamping, committing and syncing",
  ["internal/catalog.go:Sync", "internal/catalog.go:saveTableSpec"])
p("C11", "DROP IF EXISTS never fails because the object is missing",
  "DROP TABLE IF EXISTS / DROP FUNCTION IF EXISTS of a missing object succeeds and changes nothing.",
  "every catalog state and name",
  "all catalog states",
  ["internal/stmt_action.go:DropStmtAction.exec", "internal/catalog.go:deleteTableSpecByName"])
# ---------------------------------------------------------------- driver / scripts
p("C12", "Scripts run in order and stop at the first failure",
  "Exec and Query of a script run its statements in order; if statement k fails, statements 1..k-1 have been executed, no statement after k is, and the call returns an error; if none fails the call returns the outcome of the last statement.",
  "all scripts of any length, all failure points",
  "any length and any failure position",
  ["driver.go:ZetaSQLiteConn.ExecContext", "driver.go:ZetaSQLiteConn.QueryContext", "internal/analyzer.go:Analyze"])
p("C13", "Temporary objects do not outlive Exec",
  "When Exec returns, no temporary table, view or function created by the script is left in the database or in the catalog, whichever statement failed.",
  "all scripts, all failure points (including failures of SQLite itself)",
  "every crash/failure point in scripts of any length",
  ["driver.go:ZetaSQLiteConn.ExecContext", "internal/stmt_action.go:CreateTableStmtAction.Cleanup", "internal/stmt_action.go:CreateFunctionStmtAction.Cleanup"])
p("C14", "Temporary objects do not outlive Query",
  "When Query fails, or when the rows returned by Query are closed, no temporary object created by the script is left.",
  "all scripts, all failure points",
  "every failure point",
  ["driver.go:ZetaSQLiteConn.QueryContext", "internal/rows.go:Rows.Close", "internal/rows.go:Rows.SetActions"])
p("C15", "Exec never destroys an object it did not create",
  "A script that only creates objects never removes a table that existed before it, even when it fails.",
  "all prior states, all scripts, all failure points",
  "needs a name clash between a temporary and an existing object plus the cleanup path",
  ["driver.go:ZetaSQLiteConn.ExecContext", "internal/stmt_action.go:CreateTableStmtAction.Cleanup"])
p("C16", "The reported catalog change is the net change of the script",
  "The tables and functions reported by ChangedCatalog as added/deleted after a script are disjoint by name, and name for name say what the last CREATE/DROP of that name in the script did.",
  "all sequences of CREATE and DROP within a script",
  "sequences are unbounded",
  ["internal/conn.go:Conn.addTable", "internal/conn.go:Conn.deleteTable", "internal/conn.go:Conn.addFunction", "internal/conn.go:Conn.deleteFunction", "context.go"])
p("C17", "Statements run inside the open transaction and only there",
  "Between BeginTx and Commit/Rollback every statement of the connection runs in that transaction; before and after it runs outside of any transaction; Commit and Rollback always close the transaction for the connection, even if they fail.",
  "every history of begin/commit/rollback/statement calls on a connection",
  "histories are unbounded and include failing Commit/Rollback",
  ["driver.go:ZetaSQLiteConn.BeginTx", "driver.go:ZetaSQLiteTx.Commit", "driver.go:ZetaSQLiteTx.Rollback", "internal/conn.go:Conn.ExecContext"])
p("C18", "Rollback restores the catalog",
  "After Rollback the names visible to later statements are those visible before the transaction began.",
  "every transaction body",
  "any DDL sequence inside the transaction",
  ["driver.go:ZetaSQLiteTx.Rollback", "internal/catalog.go:AddNewTableSpec"])
p("C19", "Preparing a statement changes nothing",
  "Prepare has no effect on tables or catalog until the prepared statement is executed.",
  "all statements and states",
  "all statements",
  ["driver.go:ZetaSQLiteConn.PrepareContext", "internal/stmt_action.go:CreateTableStmtAction.Prepare"])
p("C20", "One database per data source name",
  "However many goroutines open connections, all connections opened with the same data source name share one database and one catalog, and connections with different names never share one.",
  "every interleaving of Open calls with any names",
  "every schedule",
  ["driver.go:newDBAndCatalog"])
# ---------------------------------------------------------------- parameters, udf, merge
p("C21", "Named parameters bind by name",
  "In a statement with named parameters each parameter receives the argument passed under that name, compared case-insensitively, regardless of argument order or of extra arguments; repeated uses of a name receive the same value.",
  "all parameter lists and argument lists",
  "all permutations and lengths",
  ["internal/analyzer.go:getParamsFromNode", "internal/analyzer.go:getArgsFromParams", "internal/encoder.go:encodeNamedValue"])
p("C22", "Positional parameters bind left to right across a script",
  "In a script with positional parameters the i-th question mark of the whole script receives the i-th argument.",
  "all scripts and argument lists",
  "scripts of any length",
  ["internal/analyzer.go:Analyze", "internal/stmt_action.go:DMLStmtAction.Args", "internal/stmt_action.go:QueryStmtAction.Args"])
p("C23", "Calling a SQL function substitutes its arguments",
  "A call of a SQL user-defined function evaluates the body with each parameter reference replaced by the corresponding argument expression, simultaneously and nothing else.",
  "all bodies, parameter names and argument texts",
  "all strings; failures need one name to be a prefix of another or an argument text that contains a reference",
  ["internal/spec.go:FunctionSpec.CallSQL"])
p("C24", "MERGE implements the SQL standard cases",
  "MERGE ... ON target.k = source.k applies each WHEN clause to exactly the rows its match type names: MATCHED to target rows with a source row of equal key, NOT MATCHED BY TARGET to source rows without target row, NOT MATCHED BY SOURCE to target rows without source row.",
  "all target and source tables, all clause lists",
  "all table contents",
  ["internal/analyzer.go:newMergeStmtAction", "internal/stmt_action.go:MergeStmtAction.exec"])
p("C25", "A failed MERGE does not disable later MERGEs",
  "If one statement of a MERGE fails, a later MERGE on the same connection behaves as if the failed one had not been issued.",
  "all failure points inside MERGE",
  "every failure point",
  ["internal/analyzer.go:newMergeStmtAction", "internal/stmt_action.go:MergeStmtAction.exec"])
# ---------------------------------------------------------------- values
p("C26", "Stored values come back unchanged",
  "A value of any type (including NULL, nested arrays and structs) written to a table or passed through the SQL engine is read back as the same value.",
  "all values of all types and nestings",
  "infinite, nested value space",
  ["internal/encoder.go:EncodeValue", "internal/encoder.go:valueLayoutFromValue", "internal/decoder.go:DecodeValue", "internal/decoder.go:decodeFromValueLayout"])
p("C27", "Literals cannot break out of the generated SQL",
  "The text generated for any string, bytes, array or struct literal is one quoted SQL token whose content has no quote character, whatever the literal contains.",
  "all values",
  "all strings",
  ["internal/encoder.go:LiteralFromValue"])
p("C28", "DATETIME and TIME literals keep their fields",
  "Decoding a packed DATETIME (TIME) literal yields exactly the year, month, day, hour, minute, second and microsecond that were packed.",
  "all valid field combinations",
  "2^59 combinations",
  ["internal/encoder.go:datetimeValueFromLiteral", "internal/encoder.go:timeValueFromLiteral"])
p("C29", "DATE literals do not depend on the machine's time zone",
  "The date literal for day number n denotes the civil date n days after 1970-01-01 whatever the local time zone of the process.",
  "all day numbers and all zone offsets",
  "all days and zones",
  ["internal/encoder.go:dateValueFromLiteral", "internal/value.go:DateValue.ToString"])
p("C30", "TIMESTAMP column text converts back to the same instant",
  "TimeFromTimestampValue applied to the text a TIMESTAMP column is scanned as yields the stored instant to the microsecond, and the text is the decimal number of seconds since the epoch.",
  "all instants in range",
  "all 2^58 microsecond instants",
  ["timestamp.go:TimeFromTimestampValue", "internal/rows.go:assignInterfaceValue"])
p("C31", "INT64 arithmetic is exact or fails",
  "+, -, * and DIV on INT64 return the mathematical result when it fits in 64 bits and an error otherwise, never a wrong number; division truncates toward zero and division by zero is an error.",
  "all pairs of 64-bit integers",
  "2^128 pairs",
  ["internal/value.go:IntValue.Add", "internal/value.go:IntValue.Sub", "internal/value.go:IntValue.Mul", "internal/value.go:IntValue.Div", "internal/function_math.go:DIV"])
p("C32", "Comparisons of scalars form one consistent total order",
  "On values of one scalar type, exactly one of a<b, a=b, a>b holds, <= and >= agree with them, and the order is transitive; ORDER BY sorts by this order.",
  "all triples of values",
  "all triples",
  ["internal/value.go:EQ/GT/GTE/LT/LTE", "internal/function_register.go:zetasqlite_collate"])
p("C33", "Equality of arrays and structs is element-wise",
  "Two arrays, or two structs, are equal iff they have the same length and equal elements at each position, at every depth of nesting; <> is the negation of =; a NULL inside makes the answer NULL, never a crash.",
  "all arrays and structs of any nesting",
  "the nesting depth, the lengths and the places of NULLs are unbounded",
  ["internal/value.go:ArrayValue.EQ", "internal/value.go:StructValue.EQ", "internal/function.go:MAKE_STRUCT", "internal/function.go:NOT_EQ"])
p("C34", "NUMERIC arithmetic does not modify its operands",
  "Evaluating a NUMERIC expression never changes the value of a column, variable or other expression that shares an operand.",
  "all operands and expression sequences",
  "aliasing depends on evaluation history",
  ["internal/value.go:NumericValue.Add", "internal/function_aggregate.go:SUM", "internal/value.go:NumericValue.Sub"])
p("C35", "Casting NUMERIC to INT64 and INT64 to BOOL uses the numeric value",
  "CAST of a NUMERIC value to INT64 rounds its numeric value half away from zero; CAST of an INT64 value to BOOL tests whether it is non-zero.",
  "all rationals",
  "all rationals",
  ["internal/value.go:NumericValue.ToInt64", "internal/value.go:NumericValue.ToBool"])
# ---------------------------------------------------------------- logic / null
p("C36", "AND, OR and NOT follow three-valued logic",
  "AND, OR, NOT over any number of TRUE/FALSE/NULL operands give the SQL three-valued result.",
  "all operand lists",
  "any number of operands",
  ["internal/function.go:AND", "internal/function.go:OR", "internal/function.go:NOT", "internal/function_bind.go:bindAnd"])
p("C37", "IN follows three-valued logic",
  "x IN (list) is TRUE if some element equals x, else NULL if x or some element is NULL, else FALSE.",
  "all operands and lists",
  "lists of any length",
  ["internal/function.go:IN", "internal/function_bind.go:bindIn", "internal/function.go:ARRAY_IN"])
p("C38", "Comparison and arithmetic operators propagate NULL",
  "Every comparison, arithmetic, BETWEEN and LIKE operator returns NULL when an operand is NULL; IS [NOT] TRUE/FALSE/NULL and IS [NOT] DISTINCT FROM never return NULL.",
  "all operands of all types",
  "all values",
  ["internal/function_bind.go:bindAdd", "internal/function_bind.go:bindBetween", "internal/function_bind.go:bindLike", "internal/function_bind.go:bindIsTrue", "internal/function.go:IS_DISTINCT_FROM"])
p("C39", "COALESCE, IFNULL, NULLIF, IF and CASE select the documented branch",
  "COALESCE returns its first non-NULL argument, IFNULL/NULLIF/IF/CASE the branch their definition says.",
  "all argument lists",
  "any number of arguments",
  ["internal/function.go:COALESCE", "internal/function.go:IF", "internal/function.go:IFNULL", "internal/function.go:NULLIF", "internal/formatter.go:FunctionCallNode.FormatSQL"])
p("C40", "SAFE. functions have one meaning",
  "The same SAFE.f(x) or f(x) call means the same function every time the program is started.",
  "all functions, all start-ups (map iteration orders)",
  "depends on the iteration order of a Go map",
  ["internal/function_register.go:setupNormalFuncMap"])
p("C41", "LIKE matches the documented language",
  "s LIKE p is true iff s matches p where % stands for any string, _ for any single character and everything else for itself.",
  "all strings and patterns",
  "all strings and patterns",
  ["internal/function.go:LIKE"])
# ---------------------------------------------------------------- bits, math, arrays
p("C42", "Bit operators act bitwise on 64-bit words",
  "&, |, ^, ~ act on each of the 64 bits; << and >> move the bits by the given count and fill with zeros, giving 0 for counts of 64 or more, and fail for negative counts; BIT_COUNT counts the one bits of the two's complement representation, or of the bytes.",
  "all 64-bit integers, shift counts and byte strings",
  "64-bit words and all shift counts cannot be enumerated",
  ["internal/function.go:BIT_AND", "internal/function.go:BIT_LEFT_SHIFT", "internal/function.go:BIT_RIGHT_SHIFT", "internal/function_bit.go:BIT_COUNT"])
p("C43", "GREATEST and LEAST return an extreme argument",
  "GREATEST (LEAST) of non-NULL values returns one of its arguments that is not less (greater) than any other; NULL if any argument is NULL.",
  "all argument lists",
  "any number of arguments",
  ["internal/function_math.go:GREATEST", "internal/function_math.go:LEAST"])
p("C44", "RANGE_BUCKET returns the bucket of a sorted boundary array",
  "For a non-decreasing boundary array RANGE_BUCKET(p, a) is the number of boundaries <= p.",
  "all arrays and points",
  "arrays of any length",
  ["internal/function_math.go:RANGE_BUCKET"])
p("C45", "GENERATE_ARRAY enumerates the arithmetic progression",
  "GENERATE_ARRAY(a, b, s) on INT64 returns a, a+s, a+2s, ... up to b inclusive, the empty array when b lies on the wrong side of a, an error for step 0; it always terminates.",
  "all 64-bit starts, ends and steps",
  "all triples; the failures are at the extreme values",
  ["internal/function_array.go:generateArray"])
p("C46", "Array subscripts",
  "a[OFFSET(i)] returns the i-th element (0-based) for 0<=i<len and an error otherwise, SAFE_OFFSET returns NULL instead; ORDINAL is OFFSET shifted by one.",
  "all arrays and 64-bit subscripts",
  "any length, any subscript incl. negative",
  ["internal/function.go:ARRAY_OFFSET", "internal/function.go:ARRAY_SAFE_OFFSET", "internal/function.go:ARRAY_ORDINAL", "internal/function.go:ARRAY_SAFE_ORDINAL"])
p("C47", "ARRAY_CONCAT, ARRAY_LENGTH, ARRAY_REVERSE laws",
  "ARRAY_REVERSE is an involution that preserves length and elements, ARRAY_CONCAT appends, ARRAY_LENGTH is additive.",
  "all arrays",
  "any length",
  ["internal/function_array.go:ARRAY_CONCAT", "internal/function_array.go:ARRAY_REVERSE", "internal/function_array.go:ARRAY_LENGTH"])
p("C48", "IPv4 integer conversion round-trips",
  "NET.IPV4_TO_INT64(NET.IPV4_FROM_INT64(n)) = n for 0 <= n < 2^32 and the bytes are big-endian; other integers are errors.",
  "all 64-bit integers",
  "2^64 inputs",
  ["internal/function_net.go:NET_IPV4_FROM_INT64", "internal/function_net.go:NET_IPV4_TO_INT64"])
p("C49", "NET.IP_TRUNC keeps exactly the network prefix",
  "NET.IP_TRUNC(addr, n) keeps the first n bits and zeroes the others, NET.IP_NET_MASK(w, n) is n ones followed by zeroes, and truncation is idempotent.",
  "all addresses and prefix lengths",
  "2^128 addresses",
  ["internal/function_net.go:NET_IP_TRUNC", "internal/function_net.go:NET_IP_NET_MASK"])
# ---------------------------------------------------------------- strings
p("C50", "SUBSTR takes the documented slice",
  "SUBSTR(s, pos, len) is the slice of characters starting at pos (1-based; 0 as 1; negative from the end) of at most len characters; negative length is an error; it never fails otherwise.",
  "all strings, positions and lengths",
  "all 64-bit positions and lengths",
  ["internal/function_string.go:SUBSTR", "internal/function_string.go:substrPos", "internal/function_string.go:substrLen"])
p("C51", "LPAD and RPAD produce exactly the requested length",
  "LPAD/RPAD(s, n, pad) has exactly n characters, is a prefix of s when n <= length(s), and otherwise ends (starts) with s.",
  "all strings, lengths, pads",
  "all strings",
  ["internal/function_string.go:LPAD", "internal/function_string.go:RPAD"])
p("C52", "TRANSLATE maps characters simultaneously",
  "TRANSLATE(s, from, to) replaces every character of s that occurs in from by the corresponding one in to (or deletes it), in one simultaneous pass.",
  "all strings",
  "all strings; needs chains in the map",
  ["internal/function_string.go:TRANSLATE"])
p("C53", "Text encodings round-trip",
  "FROM_HEX(TO_HEX(b)) = b, FROM_BASE64(TO_BASE64(b)) = b, FROM_BASE32(TO_BASE32(b)) = b, CODE_POINTS_TO_BYTES(TO_CODE_POINTS(b)) = b, CODE_POINTS_TO_STRING(TO_CODE_POINTS(s)) = s.",
  "all byte strings",
  "all byte strings",
  ["internal/function_string.go:TO_HEX", "internal/function_string.go:FROM_HEX", "internal/function_string.go:TO_BASE64", "internal/function_string.go:FROM_BASE64"])
p("C54", "SPLIT and ARRAY_TO_STRING are inverse",
  "ARRAY_TO_STRING(SPLIT(s, d), d) = s for every delimiter d, and no piece contains d.",
  "all strings and delimiters",
  "all strings",
  ["internal/function_string.go:SPLIT", "internal/function_array.go:ARRAY_TO_STRING"])
p("C55", "STRPOS, INSTR, STARTS_WITH, ENDS_WITH find the first occurrence",
  "STRPOS(s, t) is the 1-based character position of the first occurrence of t in s, 0 if there is none.",
  "all strings",
  "all strings (multi-byte characters)",
  ["internal/function_string.go:STRPOS", "internal/function_string.go:INSTR", "internal/function_string.go:STARTS_WITH"])
p("C56", "REVERSE is an involution on characters",
  "REVERSE(REVERSE(s)) = s and LENGTH is preserved, counted in characters for STRING and bytes for BYTES.",
  "all strings",
  "all strings",
  ["internal/function_string.go:REVERSE"])
# ---------------------------------------------------------------- dates
p("C57", "DATE_ADD and DATE_SUB in days and weeks are inverse and exact",
  "DATE_ADD(d, INTERVAL n DAY) is the date n days later, DATE_SUB is its inverse, WEEK is seven days.",
  "all dates and counts in range",
  "all dates",
  ["internal/function_date.go:DATE_ADD", "internal/function_date.go:DATE_SUB"])
p("C58", "Month and year arithmetic clamps to the end of the month",
  "DATE_ADD(d, INTERVAL n MONTH|QUARTER|YEAR) lands in the month n (3n, 12n) months later, on the same day of month or the month's last day if it is shorter.",
  "all dates and counts",
  "all dates and counts; leap years",
  ["internal/function_date.go:addMonth", "internal/function_date.go:addYear", "internal/function_date.go:DATE_ADD"])
p("C59", "DATE_DIFF counts boundaries",
  "DATE_DIFF(a, b, part) is the number of part boundaries between b and a (days, weeks starting on the given weekday, ISO weeks, months, quarters, years), antisymmetric in a and b.",
  "all pairs of dates and parts",
  "all pairs",
  ["internal/function_date.go:DATE_DIFF"])
p("C60", "DATE_TRUNC is the start of the enclosing period",
  "DATE_TRUNC(d, part) is the first day of the part containing d; it is idempotent, monotone and at most d.",
  "all dates and parts",
  "all dates",
  ["internal/function_date.go:DATE_TRUNC"])
p("C61", "LAST_DAY is the last day of the enclosing period",
  "LAST_DAY(d, part) is the last day of the week, ISO week, month, quarter or year containing d.",
  "all dates and parts",
  "all dates",
  ["internal/function_date.go:LAST_DAY"])
p("C62", "UNIX_DATE and DATE_FROM_UNIX_DATE are inverse",
  "UNIX_DATE(DATE_FROM_UNIX_DATE(n)) = n for every day in range, before and after 1970.",
  "all days",
  "all days",
  ["internal/function_date.go:UNIX_DATE", "internal/function_date.go:DATE_FROM_UNIX_DATE"])
p("C63", "EXTRACT agrees with the calendar",
  "EXTRACT(YEAR|QUARTER|MONTH|DAY|DAYOFWEEK|DAYOFYEAR FROM d) are the calendar fields of d.",
  "all dates",
  "all dates",
  ["internal/function.go:EXTRACT"])
p("C64", "TIMESTAMP_TRUNC and DATETIME_TRUNC round down to the part",
  "Truncating to MICROSECOND..YEAR gives the latest instant not after the argument whose finer fields are all zero (first).",
  "all instants and parts",
  "all instants",
  ["internal/function_datetime.go:DATETIME_TRUNC", "internal/function_time.go:TIME_TRUNC", "internal/function_timestamp.go:TIMESTAMP_TRUNC"])
p("C65", "UNIX_MICROS, MILLIS, SECONDS convert both ways",
  "UNIX_x(TIMESTAMP_x(n)) = n for every n in range and x in SECONDS, MILLIS, MICROS; before 1970 UNIX_SECONDS and UNIX_MILLIS round down.",
  "all instants",
  "all instants, negative ones included",
  ["internal/function_timestamp.go:TIMESTAMP_SECONDS", "internal/function_timestamp.go:UNIX_SECONDS", "internal/function_timestamp.go:TIMESTAMP_MILLIS"])
p("C66", "JUSTIFY functions preserve the interval",
  "JUSTIFY_DAYS, JUSTIFY_HOURS and JUSTIFY_INTERVAL preserve the total length (30-day months, 24-hour days) and normalise days to (-30,30), hours to (-24,24) and months to (-12,12).",
  "all intervals",
  "all intervals, mixed signs",
  ["internal/function_interval.go:JUSTIFY_DAYS", "internal/function_interval.go:JUSTIFY_HOURS", "internal/function_interval.go:JUSTIFY_INTERVAL"])
p("C67", "PARSE_DATE inverts FORMAT_DATE",
  "PARSE_DATE(f, FORMAT_DATE(f, d)) = d for every format f that prints year, month and day, in whatever order.",
  "all dates and such formats",
  "all dates, all orders of elements",
  ["internal/function_time_parser.go:parseTimeFormat", "internal/function_time_parser.go:formatTime"])
p("C68", "Parsing rejects text that does not match the format",
  "PARSE_DATE/PARSE_TIMESTAMP fail when a literal character of the format is not present in the text or the fields do not form a valid date.",
  "all formats and texts",
  "all texts",
  ["internal/function_time_parser.go:parseTimeFormat", "internal/function_time_parser.go:dayParser"])
# ---------------------------------------------------------------- aggregates
p("C69", "COUNT, SUM, MIN, MAX, AVG compute their definition",
  "Over any multiset of rows: COUNT(*) the number of rows, COUNT(x) the non-NULL ones, SUM/MIN/MAX/AVG over the non-NULL values and NULL when there is none; the result does not depend on row order.",
  "all row sequences and permutations",
  "any number of rows",
  ["internal/function_aggregate.go:COUNT", "internal/function_aggregate.go:SUM", "internal/function_aggregate.go:MIN", "internal/function_aggregate.go:MAX", "internal/function_aggregate.go:AVG"])
p("C70", "BIT_AND, BIT_OR, BIT_XOR aggregates fold the operator",
  "BIT_AND/BIT_OR/BIT_XOR over a group equal the bitwise fold of the non-NULL values.",
  "all value sequences",
  "all sequences",
  ["internal/function_aggregate.go:BIT_AND_AGG", "internal/function_aggregate.go:BIT_OR_AGG", "internal/function_aggregate.go:BIT_XOR_AGG"])
p("C71", "DISTINCT feeds each value once, IGNORE NULLS no NULL",
  "An aggregate with DISTINCT sees each distinct value exactly once in order of first occurrence; with IGNORE NULLS it sees no NULL; otherwise every row.",
  "all row sequences of INT64, BOOL and STRING values (strings that are JSON objects: see C73), any aggregate function",
  "any number of rows",
  ["internal/function_bind.go:Aggregator.Step"])
p("C72", "ORDER BY and LIMIT inside aggregates",
  "ARRAY_AGG/STRING_AGG with ORDER BY and LIMIT n return the first n values in the requested order; the multiset is preserved without LIMIT.",
  "all row sequences, keys and limits",
  "any number of rows",
  ["internal/function_aggregate.go:sortAggregatedValues", "internal/function_aggregate.go:ARRAY_AGG", "internal/function_aggregate.go:STRING_AGG"])
p("C73", "User data is never mistaken for an aggregate option",
  "An aggregate over strings sees every value, whatever text the strings contain.",
  "all strings",
  "needs a particular string",
  ["internal/function_aggregate_option.go:parseAggregateOptions"])
p("C74", "GROUP BY keys separate distinct groups",
  "Rows are grouped together iff their keys are equal.",
  "all key tuples",
  "all pairs of keys",
  ["internal/function_register.go:zetasqlite_group_by", "internal/function_window_option.go:WindowFuncAggregatedStatus.Partition"])
# ---------------------------------------------------------------- windows
p("C75", "ROWS frames select the documented rows",
  "For ROWS BETWEEN a AND b the function sees exactly the rows of the partition whose position differs from the current row by an offset between a and b.",
  "all partitions, positions and frame bounds",
  "any partition size and bounds",
  ["internal/function_window_option.go:getIndexFromBoundaryByRows", "internal/function_window_option.go:Done"])
p("C76", "RANGE frames select peers by value",
  "For RANGE frames the function sees exactly the rows whose order key differs from the current one by an amount between the bounds.",
  "all partitions and bounds",
  "any partition, ties and gaps",
  ["internal/function_window_option.go:getIndexFromBoundaryByRange", "internal/function_window_option.go:lookupMinIndex", "internal/function_window_option.go:lookupMaxIndex"])
p("C77", "Partitions are independent",
  "The window result for a row depends only on the rows with the same partition key.",
  "all tables",
  "needs colliding partition keys",
  ["internal/function_window_option.go:Partition", "internal/function_window_option.go:Step"])
p("C78", "ROW_NUMBER, RANK, DENSE_RANK number the ordered partition",
  "ROW_NUMBER is 1..n in order, RANK is 1 + the number of rows strictly before, DENSE_RANK 1 + the number of distinct keys before.",
  "all partitions",
  "any size and key values (negative ones included)",
  ["internal/function_window.go:WINDOW_ROW_NUMBER", "internal/function_window.go:WINDOW_RANK", "internal/function_window.go:WINDOW_DENSE_RANK"])
p("C79", "LEAD, LAG, FIRST_VALUE, LAST_VALUE, NTH_VALUE address rows by position",
  "LAG/LEAD(x, k) is x k rows before/after, the default outside; NTH_VALUE(x, n) is the n-th row of the frame, NULL if there is none.",
  "all partitions, offsets and n",
  "any size and offset",
  ["internal/function_window.go:WINDOW_LAG", "internal/function_window.go:WINDOW_LEAD", "internal/function_window.go:WINDOW_NTH_VALUE"])
p("C80", "NTILE splits into buckets of near-equal size",
  "NTILE(n) assigns 1..n in order with bucket sizes differing by at most one, larger ones first.",
  "all partition sizes and n",
  "any size",
  ["internal/function_window.go:WINDOW_NTILE"])
# ---------------------------------------------------------------- formatting / misc
p("C81", "FORMAT %d, %' and width print the number",
  "FORMAT('%d', n) is the decimal text, with ' grouped by thousands, and removing the commas gives the plain text; width pads to at least the width.",
  "all integers and widths",
  "all 64-bit integers",
  ["internal/function_format.go:parseInteger", "internal/function_format.go:parseFormat"])
p("C82", "Wildcard tables read exactly the tables with the prefix",
  "Selecting from `prefix*` reads exactly the tables whose name starts with the prefix.",
  "all catalogs and prefixes",
  "all names",
  ["internal/wildcard_table.go:createWildcardTable"])
p("C83", "Generated column names never collide",
  "In the generated SQL, two different columns of a query never get the same name, whatever the user named them.",
  "all column names and ids",
  "all names, including ones containing #",
  ["internal/formatter.go:uniqueColumnName"])

p("C84","A table reference reads the table whose columns it was checked against",
  "The table whose schema a query is analysed with is the table whose rows the query reads, however the reference is abbreviated under the connection's name path.",
  "all DDL histories, name paths and references",
  "the two resolutions (catalog look-up and name formatting) are separate code paths and agree on most inputs; only some combinations of name path and creation order separate them",
  ["internal/catalog.go: FindTable","internal/formatter.go: getTableName","internal/name_path.go: mergePath"])
p("C85","TRUNCATE empties the table its reference denotes",
  "TRUNCATE TABLE ref removes all rows of the table ref denotes under the name path and touches no other table.",
  "all sets of tables, name paths and references",
  "depends on every combination of name path and table path",
  ["internal/analyzer.go: newTruncateStmtAction","internal/stmt_action.go: TruncateStmtAction"])
p("C86","A missing named argument is reported",
  "If a statement refers to a named parameter for which no argument of that name is passed, the call fails instead of running with another value.",
  "all parameter lists and argument lists",
  "needs every combination of present, missing and extra names",
  ["internal/analyzer.go:getArgsFromParams"])
p("C87","EXTRACT of weeks and ISO weeks follows the calendar",
  "EXTRACT(ISOYEAR|ISOWEEK FROM d) are the ISO 8601 year and week of d; EXTRACT(WEEK FROM d) is the number of Sundays of the year up to d.",
  "all dates",
  "The errors sit at year ends and depend on the weekday of January 1st; a handful of sampled dates misses them.",
  ["internal/function.go:EXTRACT"])
p("C88","DATE(y, m, d) and EXTRACT are inverse",
  "DATE(y, m, d) of a valid civil date is that date: EXTRACT gives y, m and d back, and rebuilding a date from its fields gives the same date.",
  "all dates, including leap days and years before 1970",
  "Calendar arithmetic has to be right in every year of the 400-year cycle.",
  ["internal/function_date.go:DATE", "internal/function.go:EXTRACT"])
p("C89","DATE_DIFF undoes DATE_ADD",
  "DATE_DIFF(DATE_ADD(d, INTERVAL n part), d, part) = n for DAY, WEEK, MONTH and YEAR.",
  "all dates and counts in range",
  "Relates two functions over all dates; clamping at month ends and 64-bit durations only matter for special pairs.",
  ["internal/function_date.go:DATE_ADD", "internal/function_date.go:DATE_DIFF"])
p("C90","Integer math functions are exact or NULL",
  "On INT64 arguments MOD, ABS, SAFE_ADD, SAFE_SUBTRACT, SAFE_MULTIPLY and SAFE_NEGATE return the mathematical result when it fits in 64 bits; otherwise ABS fails and the SAFE_ functions return NULL.",
  "all 64-bit integers",
  "the failures sit above 2^53 and at the ends of the 64-bit range",
  ["internal/function_math.go:MOD", "internal/function_math.go:ABS", "internal/function_math.go:SAFE_ADD", "internal/function_math.go:SAFE_SUBTRACT", "internal/function_math.go:SAFE_MULTIPLY", "internal/function_math.go:SAFE_NEGATE"])
p("C92","GENERATE_DATE_ARRAY enumerates the dates",
  "GENERATE_DATE_ARRAY(a, b, INTERVAL s part) returns a, a + s parts, a + 2s parts, ... up to b inclusive, each computed from a by the rule of DATE_ADD; the empty array when b lies on the wrong side; an error for step 0.",
  "all dates, steps and parts",
  "month ends, leap days and the accumulated drift need every date and step",
  ["internal/function_array.go:generateDateArray", "internal/value.go:DateValue.AddDateWithInterval"])
p("C91","CAST of FLOAT64 to INT64 rounds half away from zero",
  "CAST(x AS INT64) of a FLOAT64 value returns the nearest integer, halves going away from zero, and fails for NaN, infinities and values outside the 64-bit range.",
  "all FLOAT64 values",
  "2^64 values; the failures are every value with a fractional part of one half or more",
  ["internal/value.go:FloatValue.ToInt64"])
p("C93","NUMERIC values have at most nine decimal digits after the point",
  "The result of a NUMERIC operation is rounded to nine decimal digits, so that two NUMERIC values that print the same are equal.",
  "all NUMERIC operands",
  "every quotient",
  ["internal/value.go:NumericValue.Div", "internal/value.go:NumericValue.toString"])
p("C94","CAST between INT64 and STRING",
  "CAST(CAST(i AS STRING) AS INT64) = i for every i; CAST(s AS INT64) succeeds exactly on an optional sign followed by decimal digits whose value fits in 64 bits (or a hexadecimal number after 0x) and returns that value; it fails on every other string, including the empty one.",
  "all integers and strings",
  "all 2^64 integers and all strings",
  ["internal/value.go:StringValue.ToInt64", "internal/value.go:IntValue.ToString"])
p("C95","CAST between BOOL and STRING",
  "CAST(b AS STRING) is 'true' or 'false'; CAST(s AS BOOL) accepts exactly the strings true and false in any letter case and fails on every other string.",
  "all strings",
  "all strings",
  ["internal/value.go:StringValue.ToBool", "internal/value.go:BoolValue.ToString"])
p("C96","LEFT and RIGHT take exactly the requested end of the text",
  "LEFT(s, n) and RIGHT(s, n) are the first and the last min(n, length) characters (bytes for BYTES) of s; a negative n is an error.",
  "all strings, byte strings and lengths",
  "The claim ranges over all texts, including multi-byte characters at the cut.",
  ["internal/function_string.go:LEFT", "internal/function_string.go:RIGHT"])
p("C97","REPLACE and REPEAT rewrite every occurrence",
  "REPLACE(s, from, to) replaces all non-overlapping occurrences of from, leftmost first, and leaves s unchanged when from is empty; REPEAT(s, n) is s written n times, and a negative n is an error, not a crash.",
  "all texts and counts",
  "Overlaps, empty search texts and multi-byte boundaries cannot be enumerated.",
  ["internal/function_string.go:REPLACE", "internal/function_string.go:REPEAT"])
p("C98","Lengths add up under concatenation",
  "CONCAT(a, b, ...) is the arguments one after the other and LENGTH of it the sum of their lengths, in characters for STRING and in bytes for BYTES; LENGTH(s) <= BYTE_LENGTH(s), with equality exactly for ASCII texts.",
  "all lists of texts, all lists of byte strings",
  "Quantifies over all character sequences.",
  ["internal/function_string.go:CONCAT", "internal/function_string.go:LENGTH", "internal/function_string.go:BYTE_LENGTH"])
p("C99","SAFE_CONVERT_BYTES_TO_STRING always yields valid text",
  "SAFE_CONVERT_BYTES_TO_STRING(b) is valid UTF-8 for all bytes, equals b exactly when b is valid, and is idempotent.",
  "all byte strings",
  "All byte sequences, including every malformed one.",
  ["internal/function_string.go:SAFE_CONVERT_BYTES_TO_STRING"])
p("C100","Dates and times read back from their own text",
  "The text of a DATE, a TIME or a DATETIME (years 0 to 9999, at most microsecond precision) is read as the same date, time of day or date and time, and two different DATEs or DATETIMEs never have the same text.",
  "all days and instants of years 0 to 9999",
  "Millions of days and unboundedly many fractions; trailing zeros are dropped from fractions.",
  ["internal/value.go:DateValue.ToString", "internal/value.go:TimeValue.ToString", "internal/value.go:DatetimeValue.ToString", "internal/value.go:parseDate", "internal/value.go:parseTime", "internal/value.go:parseDatetime"])
p("C101","Only text of an existing date or time is read as one",
  "A string is read as a DATE exactly when it is YYYY-MM-DD for a day of the calendar; as a TIME exactly when it is H:MM:SS or HH:MM:SS with an optional fraction, each part in range; as a DATETIME exactly when it is such a date, a T or blanks, and such a time. It then denotes exactly what it spells (fractions truncated to nanoseconds). Every other string is an error.",
  "all strings",
  "The set of strings is infinite; tests cover a few malformed ones.",
  ["internal/value.go:parseDate", "internal/value.go:parseTime", "internal/value.go:parseDatetime"])
p("C102","TRIM, LTRIM and RTRIM remove exactly the characters asked for",
  "With a STRING and a set of characters given as a STRING, LTRIM (RTRIM) returns the text without its longest leading (trailing) run of characters of the set, TRIM without both; no other character is removed or changed.",
  "all Unicode strings and character sets",
  "Strings, sets and the multi-byte characters in them are unbounded.",
  ["internal/function_string.go:TRIM", "internal/function_string.go:LTRIM", "internal/function_string.go:RTRIM"])
p("C103","Trimming BYTES and default trimming",
  "TRIM, LTRIM and RTRIM of BYTES remove leading and trailing bytes of the given set, and without a set they remove white space.",
  "all byte strings, sets and strings",
  "The inputs are unbounded and the binders treat BYTES sets differently per function.",
  ["internal/function_bind.go:bindLtrim", "internal/function_bind.go:bindRtrim", "internal/function_bind.go:bindTrim", "internal/value.go:BytesValue.ToString"])
p("C104","IPv4 bytes and integers",
  "NET.IPV4_TO_INT64 gives, for every 4-byte value, an integer n with 0 <= n < 2^32 from which NET.IPV4_FROM_INT64 gives the same 4 bytes back, and it is an error for every BYTES value of another length.",
  "every BYTES value",
  "2^32 values, and every length.",
  ["internal/function_net.go:NET_IPV4_FROM_INT64,NET_IPV4_TO_INT64"])
p("C105","IPv4 texts",
  "NET.IP_FROM_STRING reads a 4-byte address from a text exactly when the text is the one NET.IP_TO_STRING prints for these bytes: four decimal numbers from 0 to 255 without leading zeros, separated by points.",
  "every text and every 4-byte address",
  "The texts are unbounded; tests try a few malformed ones.",
  ["internal/function_net.go:NET_IP_FROM_STRING,NET_IP_TO_STRING"])
p("C106","COUNT(*), COUNT(x) and COUNTIF count",
  "COUNT(*) returns the number of rows of the group, COUNT(x) the number of rows where x is not NULL, COUNTIF(x) the number of rows where x is TRUE; 0 for an empty group.",
  "all row sequences with fewer than 2^63 rows",
  "groups are unbounded",
  ["internal/function_aggregate.go:COUNT", "internal/function_aggregate.go:COUNT_STAR", "internal/function_aggregate.go:COUNTIF"])
p("C107","MIN and MAX return a least and a greatest value",
  "Over comparable values MAX returns one of the non-NULL values such that none is after it, MIN one such that none is before it, NULL if there is none; ANY_VALUE returns the first non-NULL value.",
  "all row sequences of pairwise comparable values (NaN apart)",
  "all value sequences of every comparable type",
  ["internal/function_aggregate.go:MIN", "internal/function_aggregate.go:MAX", "internal/function_aggregate.go:ANY_VALUE"])
p("C108","SUM over INT64 and NUMERIC is exact and independent of row order",
  "SUM of INT64 values is their sum whenever the sum is in INT64 range, even if partial sums are not; SUM of NUMERIC values is their exact sum; NULL if there is no non-NULL value; reordering the rows does not change it.",
  "all row sequences and permutations",
  "partial sums overflow only for particular orders",
  ["internal/function_aggregate.go:SUM", "internal/value.go:IntValue.Add", "internal/value.go:NumericValue.Add"])
p("C109","ARRAY_AGG keeps the rows in order",
  "ARRAY_AGG without ORDER BY returns the values of the rows in order, the first n with LIMIT n, and fails if a value is NULL.",
  "all row sequences and limits n >= 0",
  "unbounded groups",
  ["internal/function_aggregate.go:ARRAY_AGG"])
p("C110","STRING_AGG joins with the given delimiter",
  "STRING_AGG(x, d) is the non-NULL strings in order with d between them, NULL if there is none.",
  "all string sequences and delimiters",
  "any delimiter, including the empty one",
  ["internal/function_aggregate.go:STRING_AGG", "internal/function_bind.go:bindStringAgg"])
p("C111","LOGICAL_AND and LOGICAL_OR fold the non-NULL values",
  "LOGICAL_AND is TRUE iff all non-NULL values are, LOGICAL_OR iff one is; NULL if there is none.",
  "all sequences of BOOL and NULL",
  "unbounded groups",
  ["internal/function_aggregate.go:LOGICAL_AND", "internal/function_aggregate.go:LOGICAL_OR"])
p("C112","A ROWS frame that contains the current row is exactly those rows",
  "For a ROWS frame that starts at or before the current row and ends at or after it, COUNT(*), COUNT and ARRAY_AGG see exactly the rows of the ordered partition within the bounds.",
  "all tables of the common key types, all bounds whose offset plus the table size fits int64, all rows",
  "bounds, partition sizes and positions interact; tests fix a few",
  ["internal/function_window_option.go:WindowFuncAggregatedStatus.Done", "internal/function_window.go:WINDOW_COUNT_STAR"])
p("C113","ROW_NUMBER numbers the ordered partition 1..n",
  "Every row gets its position in the order of its partition, so each number from 1 to the size of the partition is given to exactly one row.",
  "all tables of the common key types, all rows",
  "any order, any ties, any number of partitions",
  ["internal/function_window.go:WINDOW_ROW_NUMBER"])
p("C114","NTILE starts at 1 and never skips a bucket",
  "The first row of the ordered partition is in bucket 1 and the next row is in the same or the next bucket.",
  "all tables of the common key types, all n > 0",
  "all partition sizes and n",
  ["internal/function_window.go:WINDOW_NTILE"])
p("C115","Window AVG is the sum of the values over their number",
  "AVG(x) OVER is the sum of the non-NULL values of the frame divided by how many there are.",
  "all ROWS frames of FLOAT64",
  "needs frames with NULLs at any place",
  ["internal/function_window.go:WINDOW_AVG"])
p("C116","CUME_DIST and PERCENT_RANK are shares of the partition",
  "CUME_DIST is the number of rows not after this one over the size of the partition, PERCENT_RANK the number of rows before over the size less one.",
  "all tables of the common key types",
  "ties at any place",
  ["internal/function_window.go:WINDOW_CUME_DIST", "internal/function_window.go:WINDOW_PERCENT_RANK"])
p("C117","FIRST_VALUE and LAST_VALUE with RESPECT or IGNORE NULLS",
  "Over a ROWS frame that contains the current row, FIRST_VALUE and LAST_VALUE are the first and last value of the frame with RESPECT NULLS, and the first and last non-NULL value with IGNORE NULLS, NULL if there is none.",
  "all tables of the common key types, all such frames, all rows",
  "NULLs at any place of any frame",
  ["internal/function_window.go:WINDOW_FIRST_VALUE", "internal/function_window.go:WINDOW_LAST_VALUE"])
p("C118","CREATE TABLE makes the table its mode says",
  "CREATE TABLE of a new name makes a table with the rows of its query (none without one) and registers it; OR REPLACE does so in place of an existing table; IF NOT EXISTS leaves an existing table as it is; without either, a name that is taken makes it fail and nothing changes. No other table is touched.",
  "all databases, catalogs, names, modes, rows and numbers of automatic indexes",
  "every state of the database and catalog the statement can meet",
  ["internal/stmt_action.go:CreateTableStmtAction.exec", "internal/spec.go:SQLiteSchema"])
p("C119","A statement that fails changes nothing",
  "When Exec of a single statement reports an error, tables, catalog and stored catalog are as before.",
  "all statements and all points at which SQLite can fail",
  "needs a failure at every SQLite call",
  ["internal/stmt_action.go:CreateTableStmtAction.exec", "internal/stmt_action.go:MergeStmtAction.exec", "driver.go:ZetaSQLiteConn.ExecContext"])
p("C120","Adding and subtracting clock units is exact",
  "TIMESTAMP_ADD/SUB and DATETIME_ADD/SUB with MICROSECOND..HOUR move the value by exactly the number of units, and TIMESTAMP_DIFF/DATETIME_DIFF give the number of whole units between two values, so the difference undoes the addition.",
  "all values from 0001 to 9999, all counts and parts",
  "the space of values is huge and the failures need distances of centuries",
  ["internal/function_timestamp.go:TIMESTAMP_ADD", "internal/function_timestamp.go:TIMESTAMP_DIFF", "internal/function_datetime.go:DATETIME_ADD", "internal/function_datetime.go:DATETIME_DIFF"])
p("C121","TIMESTAMP_ADD in days adds 24 hours per day",
  "TIMESTAMP_ADD(t, INTERVAL n DAY) is n times 24 hours after t on every machine.",
  "all instants, counts and process time zones",
  "the failure depends on the machine's zone and on daylight saving changes",
  ["internal/function_timestamp.go:TIMESTAMP_ADD", "internal/function_timestamp.go:TIMESTAMP_SUB", "internal/decoder.go:DecodeValue"])
p("C122","DATETIME_ADD with a calendar part changes the date as DATE_ADD does",
  "With DAY, WEEK, MONTH, QUARTER or YEAR, DATETIME_ADD and DATETIME_SUB keep the time of day and give the date DATE_ADD and DATE_SUB give; they fail exactly when those fail.",
  "all datetimes, counts and parts",
  "unbounded values",
  ["internal/function_datetime.go:DATETIME_ADD", "internal/function_datetime.go:DATETIME_SUB"])
p("C123","Differences in days",
  "TIMESTAMP_DIFF(a, b, DAY) is the number of whole days between the instants, DATETIME_DIFF(a, b, DAY) the number of midnights between them.",
  "all pairs of values",
  "rounding cases depend on both clocks",
  ["internal/function_timestamp.go:TIMESTAMP_DIFF", "internal/function_datetime.go:DATETIME_DIFF", "internal/function_date.go:DATE_DIFF"])
p("C124","Conversions from TIMESTAMP use UTC unless a zone is given",
  "DATE(t), DATETIME(t) and TIME(t) give the date and clock of the instant in UTC, whatever the time zone of the machine.",
  "all instants and process time zones",
  "tests run in one zone",
  ["internal/function_date.go:DATE", "internal/function_datetime.go:DATETIME", "internal/function_time.go:TIME", "internal/decoder.go:DecodeValue"])
p("C125","TIME arithmetic wraps at midnight",
  "TIME_ADD and TIME_SUB move the time of day by the given number of units modulo 24 hours, and TIME_DIFF is the number of whole units between two times.",
  "all times, counts and parts",
  "the overflow needs very large counts",
  ["internal/function_time.go:TIME_ADD", "internal/function_time.go:TIME_SUB", "internal/function_time.go:TIME_DIFF"])
p("C126","EXTRACT of clock parts and construction from fields are inverse",
  "EXTRACT(HOUR, MINUTE, SECOND, MILLISECOND, MICROSECOND) are the fields of the time of day, in their ranges and together determining it; DATETIME(y, m, d, h, mi, s) and TIME(h, mi, s) of existing fields have exactly those fields.",
  "all wall clocks and all field values",
  "unbounded values, dates before 1970 included",
  ["internal/function.go:EXTRACT", "internal/function_datetime.go:DATETIME", "internal/function_time.go:TIME"])
p("C127","Time zone offsets mean what they say",
  "A zone written as +HH:MM, -HH:MM, +HH or -HH is that far east or west of UTC, and any other name is the one of the time zone database.",
  "all offsets and names",
  "most offsets have no minutes",
  ["internal/util.go:toLocation"])
p("C128","A zone name means the same at every time",
  "What a time zone name resolves to, or whether it is refused, does not depend on the names used before in the process, by any connection.",
  "all histories of zone names, all names, any interleaving",
  "histories are unbounded",
  ["internal/util.go:toLocation", "internal/util.go:getCachedLocation", "internal/util.go:setLocationCache"])
p("C129","TIMESTAMP and DATETIME convert back and forth in a given zone",
  "In a zone of fixed offset, TIMESTAMP(dt, zone) = t iff DATETIME(t, zone) = dt; DATE and TIME of t in the zone are the two halves of that DATETIME, and EXTRACT AT TIME ZONE reads its parts; the machine's own zone plays no role.",
  "all instants, datetimes, offsets and process zones",
  "unbounded values",
  ["internal/function_timestamp.go:TIMESTAMP", "internal/function_datetime.go:DATETIME", "internal/util.go:modifyTimeZone", "internal/function.go:EXTRACT"])
p("C130","DATE, DATETIME and TIME of fields that do not exist fail",
  "DATETIME(y, m, d, h, mi, s) and TIME(h, mi, s) fail unless the fields name an existing date and time of day.",
  "all field values",
  "unbounded field values",
  ["internal/function_datetime.go:DATETIME", "internal/function_time.go:TIME"])
p("C131","JUSTIFY keeps the length of an interval as written",
  "For every interval whose minutes and seconds are under 60 in magnitude (the form intervals are printed in), JUSTIFY_DAYS, JUSTIFY_HOURS and JUSTIFY_INTERVAL keep its length (30-day months, 24-hour days), bring the days under 30 and the hours under 24, and leave minutes, seconds and fractions alone.",
  "all intervals within BigQuery's limits with minutes and seconds under 60",
  "Intervals have seven integer fields; carries between them go wrong only for particular signs and sizes.",
  ["internal/function_interval.go:JUSTIFY_DAYS", "internal/function_interval.go:JUSTIFY_HOURS", "internal/function_interval.go:JUSTIFY_INTERVAL"])
p("C132","INTERVAL n part is n of the part",
  "INTERVAL n part and MAKE_INTERVAL give an interval of exactly n of the part, for every part and every n, or fail.",
  "all parts and 64-bit n",
  "The count is stored in 32 bits: only counts beyond 2147483647 show it.",
  ["internal/function_interval.go:INTERVAL", "internal/function_interval.go:MAKE_INTERVAL"])
p("C133","DATE or DATETIME plus or minus an INTERVAL",
  "Adding an interval moves the date by its months, clamped to the end of the month, then by its days and clock; subtracting does the same backwards; without months the one undoes the other.",
  "all dates, datetimes and intervals",
  "Only combinations of day, month and interval that leave the month show the difference.",
  ["internal/value.go:DateValue.Add", "internal/value.go:DateValue.Sub", "internal/value.go:DatetimeValue.Add", "internal/value.go:DatetimeValue.Sub"])
p("C134","DATE minus DATE is the number of days between them",
  "d1 - d2 is an interval of exactly the number of days from d2 to d1.",
  "all pairs of dates",
  "The difference goes through a 64-bit number of nanoseconds: dates more than 292 years apart are needed.",
  ["internal/value.go:DateValue.Sub"])
p("C135","TIMESTAMP plus an INTERVAL",
  "Adding an interval of days and clock parts to a TIMESTAMP moves the instant by exactly its length, whatever the zone of the process.",
  "all timestamps, intervals and zones of the process",
  "Depends on the zone rules of the machine and on instants near a change of offset.",
  ["internal/value.go:TimestampValue.Add", "internal/value.go:TimestampValue.Sub"])
p("C136","GROUP BY separates exactly for most types",
  "For key columns of type INT64, STRING, BOOL, NUMERIC, DATE, DATETIME or TIME, NULLs included, two rows are in one group exactly when their keys are equal column by column, in every zone the process may run in; so the groups partition the rows.",
  "all rows and column types among these",
  "Equality must hold for all pairs of keys, not for chosen ones: a formatting that drops a digit merges only particular pairs.",
  ["internal/function_register.go:zetasqlite_group_by", "internal/value.go:Interface", "internal/formatter.go:AggregateScanNode.FormatSQL"])
p("C137","A query with subqueries returns what it was resolved to",
  "A SELECT with joins (inner, LEFT, RIGHT, FULL, cross), UNNEST (alone, correlated, joined with a table, WITH OFFSET), conditions, GROUP BY and HAVING, ORDER BY with NULLS FIRST or LAST, LIMIT and OFFSET, set operations, and scalar or EXISTS subqueries, nested and correlated in any way, is accepted and returns the rows that its resolved form means: every column reference reads the column it was resolved to, whatever the columns are called. The right side of a join is not itself a join (C139), a condition is not put on a query with LIMIT (C140) or on an aggregate without GROUP BY (C225), scalar subqueries give at most one row (C141), set operations are not INTERSECT ALL or EXCEPT ALL (C223) and list no column twice in their first input (C224), and LEFT JOIN UNNEST has an ON (C245).",
  "all queries of these forms, names, tables and functions; where a condition is put on a subquery that has a condition, an ORDER BY or a GROUP BY of its own, names have no opening parenthesis or line feed and no ON is a call without arguments",
  "all nestings and name clashes",
  ["internal/formatter.go:FormatSQL", "internal/analyzer.go:Analyze"])
p("C138","DELETE and UPDATE read the columns their expressions were resolved to",
  "The condition of a DELETE or UPDATE, and the values an UPDATE sets, read the columns they were resolved to, also inside correlated subqueries and in subqueries with UNNEST.",
  "all statements, names and tables",
  "all name clashes between a table and the subqueries of the statement",
  ["internal/formatter.go:DeleteStmtNode", "internal/formatter.go:UpdateStmtNode", "internal/analyzer.go:newDMLStmtAction"])
p("C139","Parenthesised joins mean what they say",
  "A join whose right side is itself a join returns what the nesting says.",
  "all tables and conditions",
  "all nestings of joins",
  ["internal/formatter.go:JoinScanNode"])
p("C140","A condition can be put on any subquery",
  "A WHERE over a subquery is accepted whatever the subquery contains.",
  "all subqueries",
  "all forms of subquery",
  ["internal/formatter.go:FilterScanNode"])
p("C141","A scalar subquery of several rows is an error",
  "A scalar subquery that returns more than one row makes the query fail.",
  "all subqueries and tables",
  "all table contents",
  ["internal/formatter.go:SubqueryExprNode"])
p("C142","UPDATE FROM joins the tables of its FROM clause",
  "UPDATE ... FROM updates each row from the row of the FROM clause its condition picks.",
  "all statements and tables",
  "all table contents",
  ["internal/formatter.go:UpdateStmtNode"])
p("C143","Most format elements print their documented text",
  "FORMAT_DATE, FORMAT_DATETIME, FORMAT_TIME and FORMAT_TIMESTAMP replace each of %A %a %B %b %h %C %D %x %d %F %G %H %k %M %m %n %P %p %R %S %s %T %X %t %Y %y %% by its documented text for the value (in the given zone for a TIMESTAMP), and keep the other characters.",
  "all formats of these elements, all values with a year from 1000 to 9999, all zones",
  "all formats and all dates",
  ["internal/function_time_parser.go:formatTime", "internal/function_time_parser.go:formatPatternMap"])
p("C144","Every format element prints its documented text",
  "Each of the other elements (%I %l %e %j %V %U %W %u %w %g %J %Q %z) prints its documented text.",
  "all values and elements",
  "all dates",
  ["internal/function_time_parser.go:formatPatternMap", "internal/function_time_parser.go:quarterFormatter"])
p("C145","%E elements print their text and nothing of the format is lost",
  "%E4Y, %Ez and %E1S to %E6S print their documented text, and the rest of the format is printed as if it stood alone.",
  "all formats and values",
  "all formats",
  ["internal/function_time_parser.go:formatTime", "internal/function_time_parser.go:combinationPatternInfo"])
p("C146","FORMAT and PARSE of dates and times never crash",
  "No format and no value make a FORMAT_* or PARSE_* function panic.",
  "all formats, texts and values",
  "all texts and formats",
  ["internal/function_time_parser.go:parseTimeFormat", "internal/function_time_parser.go:formatTime"])
p("C147","Hours from 1 to 12 with AM or PM are read as documented",
  "A format with %I and %p and without %H reads the text of a time with its hour from 1 to 12 and its half of the day as that time.",
  "all formats of such elements with %M and %S, all times",
  "all formats and times",
  ["internal/function_time_parser.go:parseTimeFormat", "internal/function_time_parser.go:ampmPostProcessor"])
p("C148","PARSE_TIME inverts FORMAT_TIME",
  "PARSE_TIME(f, FORMAT_TIME(f, t)) = t for every format f that prints the hour from 0 to 23, minute and second, and every t of whole seconds.",
  "all such formats and times",
  "all formats and times",
  ["internal/function_time_parser.go:parseTimeFormat", "internal/function_time_parser.go:formatTime"])
p("C149","PARSE_TIMESTAMP inverts FORMAT_TIMESTAMP when the offset is printed",
  "PARSE_TIMESTAMP(f, FORMAT_TIMESTAMP(f, t, zone)) = t for every format that prints date and time and ends in %Ez, in every zone with an offset of whole minutes.",
  "all such formats (the year not behind both month and day on 29 February), all instants of whole seconds, all zones",
  "all formats, instants and zones",
  ["internal/function_time_parser.go:parseTimeFormat", "internal/function_time_parser.go:formatTime", "internal/function_time_parser.go:timeZoneOffsetParser"])
p("C150","FORMAT replaces its specifiers from left to right",
  "A format made of characters, %%, %s, %t and %d %i %o %x %X with an optional 0 flag and width (written or *) yields the characters as they are and each specifier replaced by the text of the next argument or, with *, the next two: numbers in the base of the letter, right-aligned in the width.",
  "all formats of these specifiers and all their arguments",
  "formats have unbounded length and any number of arguments",
  ["internal/function_format.go:parseFormat", "internal/function_format.go:parseInteger"])
p("C151","FORMAT fails when the arguments do not match the format",
  "FORMAT succeeds only when there is exactly one argument of the right type for each specifier (two with *), and fails when arguments are missing, left over or of another type.",
  "all formats and argument lists",
  "the argument lists are unbounded",
  ["internal/function_format.go:parseFormat", "internal/function_format.go:validateArgs"])
p("C152","FORMAT flags + and space put the sign next to the number",
  "%+d prints a sign in front of every number, 0 included, and % d a space in front of numbers that are not negative; the width counts the sign. - left-aligns and # is accepted.",
  "all integers and widths",
  "holds or fails depending on the number of digits against the width",
  ["internal/function_format.go:parseInteger"])
p("C153","FORMAT precision sets the number of decimals",
  "%.nf prints n decimals for every n >= 0, and %.*f takes n from the arguments.",
  "all precisions and numbers",
  "the precisions are unbounded",
  ["internal/function_format.go:parseFloat", "internal/function_format.go:parseFormatPrecision"])
p("C154","FORMAT width applies to strings",
  "%ws and %*s print the string right-aligned in w characters.",
  "all strings and widths",
  "all strings and widths",
  ["internal/function_format.go:parseString"])
p("C155","FORMAT prints NULL for %t and %T",
  "FORMAT returns NULL when the format or an argument is NULL, save that %t and %T print a NULL argument as NULL.",
  "all argument lists",
  "argument lists are unbounded",
  ["internal/function_bind.go:bindFormat"])
p("C156","FORMAT does not crash",
  "No format and no arguments make FORMAT panic: it returns a string, NULL or an error.",
  "all formats and arguments",
  "formats are unbounded",
  ["internal/function_format.go:parseFormat", "internal/function_format.go:parseFloat"])
p("C157","Set operations match columns by position",
  "UNION, INTERSECT and EXCEPT, with ALL or DISTINCT, combine the selected columns of their inputs position by position, whatever the columns are called.",
  "all lists of inputs, all rows, all column names",
  "The columns, names and rows of the inputs are unbounded.",
  ["internal/formatter.go:SetOperationScanNode.FormatSQL"])
p("C158","UNION, INTERSECT and EXCEPT DISTINCT have each row once",
  "With DISTINCT the result holds no two equal rows, and a row is in it exactly when it is in some input (UNION), in all of them (INTERSECT), or in the first and none of the others (EXCEPT); rows are equal when their values are, NULL being equal to NULL. Columns have scalar types and hold no NaN; the first input selects no column twice.",
  "all numbers of inputs, all rows of INT64, STRING, BYTES, FLOAT64, NUMERIC, BOOL, DATE, DATETIME, TIME and TIMESTAMP columns",
  "Which texts stand for equal values matters for every pair of values.",
  ["internal/formatter.go:SetOperationScanNode.FormatSQL", "internal/encoder.go:EncodeValue"])
p("C159","NaN is a value of its own",
  "NaN is not NULL: set operations keep both, and NULLS LAST puts NaN with the numbers.",
  "all columns of FLOAT64",
  "One value among 2^64.",
  ["internal/formatter.go:SetOperationScanNode.FormatSQL", "internal/formatter.go:OrderByScanNode.FormatSQL"])
p("C160","ORDER BY sorts by its keys, with NULLs where they belong",
  "ORDER BY puts rows in the order of their keys, the first difference deciding, each ascending or descending; NULLs come where NULLS FIRST or NULLS LAST says, otherwise first when ascending and last when descending. Keys are scalars and not NaN.",
  "all lists of keys and modifiers, all rows",
  "The order of every pair of rows is concerned, whatever the sorting algorithm.",
  ["internal/formatter.go:OrderByScanNode.FormatSQL", "internal/function_register.go:zetasqlite_collate"])
p("C161","LIMIT and OFFSET cut the rows",
  "LIMIT n OFFSET m with n and m not negative skips the first m rows and returns the next n, or as many as there are.",
  "all rows, all n and m from 0",
  "Row counts and limits are unbounded.",
  ["internal/formatter.go:LimitOffsetScanNode.FormatSQL"])
p("C162","A negative LIMIT or OFFSET is an error",
  "A query parameter that is negative makes LIMIT or OFFSET fail.",
  "all negative parameters",
  "Parameters are arbitrary integers.",
  ["internal/formatter.go:LimitOffsetScanNode.FormatSQL"])
p("C163","GROUP BY, ROLLUP: one row per group of each grouping set",
  "For each grouping set there is one row per group of rows with equal keys, holding the keys, NULL for the keys outside the set, and the aggregates of exactly the rows of the group in their order; the empty set has one row even without input. Keys are INT64, STRING, BOOL, NUMERIC, DATE, DATETIME or TIME.",
  "all rows, all grouping sets, all aggregates",
  "Numbers of rows, keys and sets are unbounded.",
  ["internal/formatter.go:AggregateScanNode.FormatSQL", "internal/function_register.go:zetasqlite_group_by"])
p("C164","UNNEST gives the elements in order with their offsets",
  "UNNEST of an array of scalars has one row per element, NULLs included, in order, with offsets 0, 1, ...; a NULL array has none. Integers, also those in FLOAT64, are below 2^53 and texts are UTF-8.",
  "all arrays of scalars within these bounds",
  "Arrays are unbounded.",
  ["internal/formatter.go:ArrayScanNode.FormatSQL", "internal/function_register.go:zetasqlite_decode_array"])
p("C165","UNNEST keeps large INT64 values",
  "UNNEST of an array of INT64 gives these INT64 values, also beyond 2^53.",
  "all arrays of INT64",
  "Concerns every value above 2^53.",
  ["internal/formatter.go:ArrayScanNode.FormatSQL", "internal/decoder.go:decodeFromValueLayout"])
p("C166","IN over a subquery follows three-valued logic",
  "x IN (subquery) is TRUE when a row equals x, otherwise NULL when x or a row is NULL and there is a row, otherwise FALSE. Values are scalars and not NaN.",
  "all values and rows of one scalar type",
  "All combinations of NULLs and equal values.",
  ["internal/formatter.go:SubqueryExprNode.FormatSQL"])
p("C167","A WITH query means its entries in order",
  "Each entry of WITH is computed over the database and the entries before it, and the query over all of them, whatever their names.",
  "all lists of entries, names and databases",
  "Names, numbers of entries and what they read are unbounded.",
  ["internal/formatter.go:WithScanNode.FormatSQL", "internal/formatter.go:WithEntryNode.FormatSQL", "internal/formatter.go:WithRefScanNode.FormatSQL"])
p("C168","TO_JSON writes a JSON text of the value",
  "TO_JSON of a value, as it reaches the function, gives JSON whose text, read by the JSON grammar, is the document documented for the value: numbers, strings, booleans, base64 for BYTES, arrays and objects in order, null for NULL inside. Values are BOOL, INT64, NUMERIC, BYTES, valid JSON and STRING without other control characters than tab, line ends, backspace and form feed, in arrays and structs of any depth.",
  "all values built from these types",
  "Depth, lengths and characters are unbounded; escaping must agree with a grammar.",
  ["internal/function_json.go:TO_JSON", "internal/value.go:ToJSON"])
p("C169","TO_JSON_STRING writes wide numbers as strings",
  "TO_JSON_STRING gives a JSON text of the value in which INT64 and NUMERIC values that are not whole or lie outside -2^53..2^53 are strings; TO_JSON with stringify_wide_numbers does the same.",
  "all values of C168",
  "Concerns every number above 2^53 at any depth.",
  ["internal/function_json.go:TO_JSON_STRING", "internal/value.go:ToJSON"])
p("C170","PARSE_JSON reads back what TO_JSON_STRING wrote",
  "PARSE_JSON(TO_JSON_STRING(v)) succeeds and equals TO_JSON(v); TO_JSON of the result is itself; values with different documents get different texts.",
  "all values of C168, all modes",
  "A round trip over unbounded values.",
  ["internal/function_json.go:PARSE_JSON", "internal/function_json.go:TO_JSON_STRING", "internal/function_json.go:TO_JSON"])
p("C171","TO_JSON of a STRING is a JSON string",
  "For every STRING, TO_JSON gives a JSON string with the same characters.",
  "all UTF-8 strings",
  "Every character of Unicode must be escaped the JSON way.",
  ["internal/function_json.go:TO_JSON", "internal/value.go:StringValue.ToJSON"])
p("C172","TO_JSON of dates, times and special floats is JSON",
  "TO_JSON of DATE, DATETIME, TIME, TIMESTAMP, NaN and infinities is a valid JSON text.",
  "all such values",
  "All dates and times.",
  ["internal/value.go:DateValue.ToJSON", "internal/value.go:TimeValue.ToJSON", "internal/value.go:FloatValue.ToJSON"])
p("C173","TO_JSON and TO_JSON_STRING of NULL are null",
  "TO_JSON(NULL) is JSON null and TO_JSON_STRING(NULL) the text null; no argument makes them crash.",
  "all uses with NULL",
  "All combinations of arguments.",
  ["internal/function_bind.go:bindToJson", "internal/function_bind.go:bindToJsonString"])
p("C174","JSON_VALUE returns the text of a scalar",
  "JSON_VALUE and JSON_EXTRACT_SCALAR give the characters of the string, true, false or the digits of the whole number the path finds, and NULL for null, arrays, objects and paths that find nothing.",
  "all documents and paths, whatever the path finds",
  "Concerns every number and every path.",
  ["internal/function_json.go:JSON_VALUE", "internal/function_json.go:JSON_EXTRACT_SCALAR"])
p("C175","JSON_VALUE_ARRAY returns the scalars in order",
  "JSON_VALUE_ARRAY and JSON_EXTRACT_STRING_ARRAY give the texts of the scalars of the array found, in order, NULL for null, and NULL for an array with an array or object inside.",
  "all arrays found by a path",
  "Arrays are unbounded.",
  ["internal/function_json.go:JSON_VALUE_ARRAY", "internal/function_json.go:JSON_EXTRACT_STRING_ARRAY"])
p("C176","JSON_EXTRACT functions agree with the standard ones",
  "JSON_QUERY, JSON_QUERY_ARRAY, JSON_VALUE and JSON_VALUE_ARRAY give the same as JSON_EXTRACT, JSON_EXTRACT_ARRAY, JSON_EXTRACT_SCALAR and JSON_EXTRACT_STRING_ARRAY for paths without quotes.",
  "all documents and all such paths",
  "Paths and documents are unbounded.",
  ["internal/function_json.go:JSON_EXTRACT", "internal/function_json.go:JSON_QUERY"])
p("C177","JSON_TYPE names the kind of the document",
  "JSON_TYPE of a JSON value is null, boolean, number, string, array or object as its text says, and NULL for NULL.",
  "all JSON values",
  "Texts are unbounded, white space included.",
  ["internal/value.go:JsonValue.Type", "internal/function_bind.go:bindJsonType"])
p("C178","STRING, BOOL, INT64 and FLOAT64 of JSON convert the value",
  "STRING(JSON) gives the characters of a JSON string and fails for anything else; BOOL, INT64 and FLOAT64 give a value of their type.",
  "all JSON values",
  "All documents.",
  ["internal/function_bind.go:bindString", "internal/function_bind.go:bindInt64"])
p("C179","Rows hold the values of their columns",
  "A value of a column of any type, with arrays and structs nested to any depth, is what Rows.Next puts into the row: INT64, BOOL and FLOAT64 as the Go number or bool, STRING and JSON as the text, BYTES in base64, NUMERIC as its decimal number, DATE, TIME and DATETIME as the texts that name them, TIMESTAMP as its seconds since 1970 (a whole second or at least 100000 microseconds, see C30), ARRAY as a slice of its elements in order, and NULL, and nothing else, as nil. Structs as in C180; values within the limits of C26.",
  "all column types and all values of them within those limits, of any size and nesting",
  "types nest without bound and each combination takes another way through the encoding, the cast and the assignment",
  ["internal/rows.go:Next", "internal/rows.go:assignInterfaceValue", "internal/encoder.go:CastValue"])
p("C180","STRUCT columns come field by field",
  "A STRUCT value whose field names are different and not all empty, with fields of INT64, BOOL, FLOAT64, STRING, DATE, DATETIME, TIME and arrays and structs of these, comes as the list of its fields in the order of the type, each under its name with its value.",
  "all struct types and values of those kinds, of any width and depth",
  "the fields go through a map by name; any name or nesting may go wrong",
  ["internal/rows.go:assignInterfaceValue", "internal/encoder.go:CastValue", "internal/value.go:StructValue.Interface"])
p("C181","Fields of the same name keep their own values",
  "In a STRUCT with several fields of one name, as SELECT AS STRUCT 1 AS a, 2 AS a gives, each field comes with its own value.",
  "all lists of fields",
  "tests use different names",
  ["internal/encoder.go:CastValue"])
p("C182","A value looks the same inside a STRUCT",
  "A NUMERIC, BYTES or TIMESTAMP in a STRUCT comes in the same form as in a column of its own, and different values remain different.",
  "all values of these types",
  "tests compare few values",
  ["internal/value.go:Interface", "internal/rows.go:assignInterfaceValue"])
p("C183","INT64 fields of a STRUCT without names are integers",
  "The INT64 fields of a STRUCT whose fields have no names, as (1, 2), come as int64.",
  "all lists of integers",
  "tests of unnamed structs are few",
  ["internal/encoder.go:CastValue", "internal/decoder.go:decodeFromValueLayout"])
p("C184","Arguments arrive unchanged",
  "A Go value given as an argument (nil, integers in the INT64 range, floats, bools, strings, []byte, time.Time, pointers to them, slices of them, and maps and structs with the fields of the STRUCT type in any order) reaches the query as the value of the type of the parameter that it stands for, exactly as the same literal would, and SELECT of the parameter shows it. An integer given for a BOOL parameter stands for FALSE if it is 0 and for TRUE if it is 1, and is refused otherwise.",
  "all types, all Go values of these forms, of any nesting; all orders of map entries",
  "maps are iterated in random order and values nest without bound",
  ["internal/encoder.go:EncodeGoValue", "internal/encoder.go:valueFromGoReflectValue"])
p("C185","Unsigned arguments above the INT64 range are refused",
  "A uint64 argument above 2^63 - 1 for an INT64 parameter is an error.",
  "all such integers",
  "one boundary value is not all of them",
  ["internal/encoder.go:valueFromGoReflectValue"])
p("C186","A nil pointer is NULL",
  "A nil pointer given as an argument, or inside a slice, map or struct argument, is NULL.",
  "all arguments that hold a nil pointer, at any depth, for every type",
  "tests pass values, not nil pointers",
  ["internal/encoder.go:valueFromGoReflectValue", "internal/value.go:isNullValue"])
p("C187","sql.Null arguments are their value or NULL",
  "sql.NullInt64, NullFloat64, NullBool and NullString arguments are their value if valid and NULL if not.",
  "all values of these types",
  "the conversion depends on every argument type",
  ["internal/encoder.go:valueFromGoReflectValue", "driver.go:CheckNamedValue"])
p("C188","Fields are matched or refused",
  "A field of a STRUCT parameter that the Go struct or map does not have under exactly that spelling, such as name for a Go field Name, is matched regardless of case or refused.",
  "all field names and all Go structs and maps",
  "each spelling is another input",
  ["internal/encoder.go:CastValue"])
p("C189","CAST to STRING and back is the identity",
  "CAST(CAST(v AS STRING) AS T) is v for every INT64, BOOL, NUMERIC, STRING, DATE, DATETIME and TIME, and for every TIMESTAMP when the machine's zone is a whole number of minutes from UTC.",
  "all such values with years 0 to 9999, microsecond precision and at most nine decimals; all machine zones",
  "values and their texts are unbounded",
  ["internal/encoder.go:CastValue", "internal/function.go:CAST", "internal/value.go:ToString", "internal/value.go:ToTime"])
p("C190","Casts between dates and times",
  "CAST of a DATE to DATETIME or TIMESTAMP is its midnight (UTC), of a DATETIME to DATE its day, to TIME its time of day, to TIMESTAMP the same instant in UTC.",
  "all dates and times of the years 0 to 9999 in microseconds",
  "they range over all dates and times",
  ["internal/encoder.go:CastValue", "internal/function.go:CAST", "internal/value.go:ToTime"])
p("C191","CAST of a TIMESTAMP does not depend on the machine",
  "CAST of a TIMESTAMP to DATE, DATETIME or TIME gives its value in UTC, whatever the zone of the machine.",
  "all timestamps and machine zones",
  "zones are data of the machine",
  ["internal/encoder.go:CastValue", "internal/decoder.go:decodeFromValueLayout", "internal/value.go:TimestampValue"])
p("C192","CAST of a STRING to a date or time",
  "A STRING that names a day, a time of day or both is cast to that DATE, TIME or DATETIME, with T or spaces between the two and any fraction cut to microseconds.",
  "all such texts",
  "texts are unbounded",
  ["internal/encoder.go:CastValue", "internal/value.go:isDate", "internal/value.go:parseTimestamp"])
p("C193","SAFE_CAST",
  "SAFE_CAST is NULL where CAST fails, agrees with CAST elsewhere, and never fails.",
  "all types and values",
  "all pairs of types and all values",
  ["internal/function.go:CAST"])
p("C194","CAST of arrays",
  "CAST of an ARRAY to an ARRAY type succeeds exactly if the CAST of every element does and gives these in order; NULL elements and arrays stay NULL.",
  "all element types and arrays",
  "arrays of any length",
  ["internal/encoder.go:CastValue", "internal/function.go:CAST"])
p("C195","CAST of structs",
  "CAST of a STRUCT casts the fields by position, whatever their names.",
  "all struct types and values",
  "structs of any number of fields",
  ["internal/encoder.go:CastValue", "internal/function.go:CAST"])
p("C196","CAST of STRING to BYTES",
  "CAST of a STRING to BYTES gives its bytes.",
  "all strings",
  "all strings",
  ["internal/encoder.go:CastValue", "internal/value.go:ToBytes"])
p("C197","CAST of BYTES to STRING",
  "CAST of BYTES to STRING gives the text with these bytes and fails if they are not UTF-8.",
  "all byte strings",
  "all byte strings",
  ["internal/encoder.go:CastValue", "internal/value.go:BytesValue"])
p("C198","CAST of STRING to NUMERIC",
  "CAST of a STRING to NUMERIC gives the number it writes and fails if it writes none.",
  "all strings",
  "all strings",
  ["internal/encoder.go:CastValue", "internal/value.go:ToRat"])
p("C199","Numbers survive widening",
  "INT64 to NUMERIC and back, INT64 below 2^53 to FLOAT64 and back, and BOOL to INT64 and back are the identity.",
  "all such numbers",
  "all 64-bit integers",
  ["internal/encoder.go:CastValue", "internal/value.go:ToRat", "internal/value.go:ToFloat64"])
p("C200","Text of a TIMESTAMP",
  "CAST of a TIMESTAMP to STRING gives its date, a space, its time and the offset, as documented.",
  "all timestamps and machine zones",
  "all timestamps",
  ["internal/value.go:TimestampValue"])
p("C201","CAST of STRING rejects texts of another type",
  "CAST of a STRING to DATE fails unless the text names a day, to TIME unless it names a time of day; months, days, hours, minutes and seconds may have one digit.",
  "all texts",
  "texts are unbounded",
  ["internal/encoder.go:CastValue", "internal/value.go:isTime", "internal/value.go:ToTime"])
p("C202","A crash leaves every table in step with the catalog",
  "When a process is killed at any moment of a statement outside a transaction, the process that opens the file next lists a table if and only if SQLite holds it.",
  "every stored state reached by the modelled statements, every script, every moment (number of calls that reached SQLite) at which the process is killed, every later process",
  "a test kills a process at the few points it can arrange; the claim is about every point, every script and every history of crashes",
  ["driver.go:ExecContext", "internal/stmt_action.go:CreateTableStmtAction.exec", "internal/stmt_action.go:DropStmtAction.exec", "internal/catalog.go:AddNewTableSpec", "internal/catalog.go:Sync"])
p("C203","CREATE OR REPLACE TABLE and CREATE TABLE IF NOT EXISTS repair a table after a crash",
  "Whatever a crash has left of a table (a table that is not listed, a listed name without a table, both or neither), CREATE OR REPLACE TABLE and CREATE TABLE IF NOT EXISTS of that name succeed in a later process, and afterwards the name is listed and SQLite holds it.",
  "every state a crash can leave, every table specification that is not temporary; for CREATE OR REPLACE the name must not be a view in SQLite",
  "a test kills a process at the few points it can arrange; the claim is about every point, every script and every history of crashes",
  ["internal/stmt_action.go:CreateTableStmtAction.exec", "internal/catalog.go:AddNewTableSpec", "internal/spec.go:SQLiteSchema"])
p("C204","DROP TABLE IF EXISTS cleans up after a crash",
  "After a crash, DROP TABLE IF EXISTS of the name of the interrupted statement succeeds in the next process and leaves neither a table nor a catalog entry.",
  "every stored state reached by the modelled statements, every script, every moment (number of calls that reached SQLite) at which the process is killed, every later process",
  "a test kills a process at the few points it can arrange; the claim is about every point, every script and every history of crashes",
  ["internal/stmt_action.go:DropStmtAction.exec", "internal/catalog.go:DeleteTableSpec"])
p("C205","Temporary objects do not outlive the process",
  "An object created with CREATE TEMP does not exist in a process that is started after the one that created it ended or was killed.",
  "every stored state reached by the modelled statements, every script, every moment (number of calls that reached SQLite) at which the process is killed, every later process",
  "a test kills a process at the few points it can arrange; the claim is about every point, every script and every history of crashes",
  ["driver.go:ExecContext", "internal/stmt_action.go:CreateTableStmtAction.Cleanup", "internal/stmt_action.go:CreateFunctionStmtAction.Cleanup"])
p("C206","A statement is all or nothing when the process is killed",
  "When the process is killed during a statement outside a transaction, the stored tables are those before the statement or those after it.",
  "every stored state reached by the modelled statements, every script, every moment (number of calls that reached SQLite) at which the process is killed, every later process",
  "a test kills a process at the few points it can arrange; the claim is about every point, every script and every history of crashes",
  ["internal/stmt_action.go:DMLStmtAction.ExecContext", "internal/stmt_action.go:TruncateStmtAction.exec", "internal/stmt_action.go:MergeStmtAction.exec", "internal/stmt_action.go:CreateTableStmtAction.exec"])
p("C207","REGEXP_EXTRACT starts at the given character",
  "REGEXP_EXTRACT(s, e, p, n) is the n-th element of REGEXP_EXTRACT_ALL(SUBSTR(s, p), e), and NULL if there are fewer or if p is past the end.",
  "every regular expression engine whose matches are stretches of the text (a parameter), every text, expression, position and occurrence",
  "tests try a handful of texts and expressions; the claim is about all of them and about every engine",
  ["internal/function_string.go:REGEXP_EXTRACT", "internal/function_string.go:REGEXP_EXTRACT_ALL", "internal/function_bind.go:bindRegexpExtract"])
p("C208","The REGEXP functions agree on whether there is a match",
  "For a non-empty STRING s, REGEXP_CONTAINS(s, e) is true exactly when REGEXP_EXTRACT_ALL(s, e) is not empty, when REGEXP_EXTRACT(s, e) is not NULL and when REGEXP_INSTR(s, e) is positive; if it is false, REGEXP_REPLACE(s, e, r) does not change s.",
  "every regular expression engine whose matches are stretches of the text (a parameter), every text, expression, position and occurrence",
  "tests try a handful of texts and expressions; the claim is about all of them and about every engine",
  ["internal/function_string.go:REGEXP_CONTAINS", "internal/function_string.go:REGEXP_EXTRACT", "internal/function_string.go:REGEXP_INSTR", "internal/function_string.go:REGEXP_REPLACE"])
p("C209","REGEXP_INSTR points at what REGEXP_EXTRACT returns",
  "If REGEXP_INSTR(s, e, p, n) is k > 0 then SUBSTR(s, k) starts with REGEXP_EXTRACT(s, e, p, n), and with occurrence_position 1 it is the position just after it.",
  "every regular expression engine whose matches are stretches of the text (a parameter), every text, expression, position and occurrence",
  "tests try a handful of texts and expressions; the claim is about all of them and about every engine",
  ["internal/function_string.go:REGEXP_INSTR", "internal/function_string.go:REGEXP_EXTRACT", "internal/function_string.go:SUBSTR"])
p("C210","The REGEXP functions work on BYTES as on STRING",
  "On BYTES that are ASCII the REGEXP functions give what they give on the STRING with the same characters.",
  "every regular expression engine whose matches are stretches of the text (a parameter), every text, expression, position and occurrence",
  "tests try a handful of texts and expressions; the claim is about all of them and about every engine",
  ["internal/function_bind.go:bindRegexpContains", "internal/function_bind.go:bindRegexpExtract", "internal/function_bind.go:bindRegexpExtractAll", "internal/value.go:BytesValue.ToString"])
p("C211","REGEXP_REPLACE reads the replacement as documented",
  "In the replacement a backslash and a digit stand for the group of that number (0 for the whole match), two backslashes for one, and every other character for itself.",
  "every engine, text, expression and replacement",
  "the replacement is rewritten into Go's template syntax by a hand-written loop; the claim is about every replacement",
  ["internal/function_string.go:normalizeReplacement", "internal/function_string.go:REGEXP_REPLACE"])
p("C212","The REGEXP functions do not crash",
  "No argument of REGEXP_CONTAINS, REGEXP_EXTRACT, REGEXP_EXTRACT_ALL, REGEXP_INSTR or REGEXP_REPLACE crashes the process.",
  "every regular expression engine whose matches are stretches of the text (a parameter), every text, expression, position and occurrence",
  "tests try a handful of texts and expressions; the claim is about all of them and about every engine",
  ["internal/function_string.go:normalizeReplacement", "internal/function_string.go:REGEXP_INSTR"])
p("C213","INITCAP with delimiters",
  "INITCAP(s, d) has as many characters as s; the first one and those that follow a character of d are in upper case, unless they are in d themselves, the characters of d (but for the first one of s) are as in s, and all others are in lower case.",
  "all strings and delimiters, any per-character case mapping",
  "the loop skips characters depending on their neighbours; the claim is about every string and set of delimiters",
  ["internal/function_string.go:INITCAP", "internal/function_bind.go:bindInitcap"])
p("C214","INITCAP without delimiters",
  "Without its second argument INITCAP takes white space and the documented punctuation as delimiters.",
  "all strings",
  "tests try a handful of texts and expressions; the claim is about all of them and about every engine",
  ["internal/function_string.go:INITCAP", "internal/function_string.go:defaultInitcapDelimiters"])
p("C215","SOUNDEX code",
  "SOUNDEX(s) depends only on the ASCII letters of s. It is empty if there are none; otherwise it is the first letter and three digits: the codes of the letters, without those of code 0, equal neighbours merged, the first letter's own code left out, cut or filled with 0 to three.",
  "all strings",
  "the loop carries the previous code over skipped letters; the claim is about every string",
  ["internal/function_string.go:SOUNDEX", "internal/function_string.go:soundexMap"])
p("C216","WithCurrentTime decides what CURRENT_TIMESTAMP shows",
  "In a query whose context was made by WithCurrentTime(ctx, t), CURRENT_TIMESTAMP() is t.",
  "all times t, all clocks, all queries' views and functions",
  "Any suite tries a few times near the present; the claim is about every time.Time.",
  ["internal/formatter.go:getFuncNameAndArgs", "internal/context.go:WithCurrentTime", "internal/function_bind.go:bindCurrentTimestamp"])
p("C217","A query under WithCurrentTime does not look at the clock",
  "A query whose context was made by WithCurrentTime gives the same result whenever it runs, and all its calls of CURRENT_DATE, CURRENT_DATETIME, CURRENT_TIME and CURRENT_TIMESTAMP without a zone show the same instant in the same zone.",
  "all queries built from the four functions, constants and other functions, all times, all readings of the clock",
  "Tests run in an instant and cannot choose the readings of the clock.",
  ["internal/formatter.go:getFuncNameAndArgs", "internal/function_bind.go:bindCurrentDate", "internal/function_bind.go:bindCurrentDatetime", "internal/function_bind.go:bindCurrentTime"])
p("C218","The current date and time are those of UTC by default",
  "CURRENT_DATE(), CURRENT_DATETIME() and CURRENT_TIME() without a zone show the wall clock of UTC.",
  "all times, all zones of the process, with and without WithCurrentTime",
  "Test machines run in UTC; the claim is about every zone of the process.",
  ["internal/function_bind.go:bindCurrentDatetime", "internal/util.go:timeFromUnixNano", "internal/function_datetime.go:CURRENT_DATETIME"])
p("C219","The functions of the clock take a time zone",
  "CURRENT_DATE(z), CURRENT_DATETIME(z), CURRENT_TIME(z) show the wall clock of the zone z, and a z that is no zone is an error.",
  "all zones, all times, with and without WithCurrentTime",
  "Tests name a few zones and do not combine them with WithCurrentTime.",
  ["internal/formatter.go:getFuncNameAndArgs", "internal/function_bind.go:bindCurrentDate", "internal/function_bind.go:bindCurrentTime", "internal/util.go:toLocation"])
p("C220","All current times in one query agree",
  "All calls of the functions of the clock in one query show the same instant.",
  "all queries, all readings of the clock",
  "Two readings in one query differ by microseconds; a test sees the difference only if a boundary falls between them.",
  ["internal/function_date.go:CURRENT_DATE", "internal/function_timestamp.go:CURRENT_TIMESTAMP"])
p("C221","Current times lie between the start and the end of the query",
  "Without WithCurrentTime every instant that a query shows is a reading of the clock made while the query ran, and a call evaluated later never shows an earlier instant.",
  "all queries, all clocks that do not run backwards",
  "A test cannot choose the readings.",
  ["internal/function_timestamp.go:CURRENT_TIMESTAMP", "internal/function_bind.go:bindCurrentTimestamp"])
p("C222","Views, functions and prepared statements show the time of the query",
  "A query that uses a view, a function that was created before, or a statement prepared before shows the current time of the context of that query.",
  "all bodies, all times of creation and of the query",
  "The claim is about histories: creation under one context and use under another.",
  ["internal/spec.go:newFunctionSpec", "internal/spec.go:newTableAsViewSpec", "internal/stmt.go:QueryStmt"])
p("C223","INTERSECT ALL and EXCEPT ALL work",
  "A query that combines two queries by INTERSECT ALL or EXCEPT ALL returns the rows with their multiplicities.",
  "all inputs, names and tables",
  "every such query fails, whatever it combines",
  ["internal/formatter.go:SetOperationScanNode"])
p("C224","A query in a set operation may select a column twice",
  "Each output column of a set operation holds the values of the column at the same position of every input.",
  "all inputs, also those that list a column twice",
  "depends on which columns the first input lists",
  ["internal/formatter.go:SetOperationScanNode"])
p("C225","HAVING works without GROUP BY",
  "A condition on aggregates without GROUP BY is applied to the one row of aggregates.",
  "all conditions and tables",
  "all tables",
  ["internal/formatter.go:FilterScanNode", "internal/formatter.go:AggregateScanNode"])
p("C226","Goroutines on one database do not crash the process",
  "Goroutines may run CREATE, DROP and SELECT statements on connections of one database at the same time; no order of their steps aborts the process.",
  "every starting catalog, every number of goroutines, every list of statements of each and every schedule",
  "The outcome depends on how the goroutines interleave; a test sees a few schedules, the claim is about all of them and any number of goroutines.",
  ["driver.go:newDBAndCatalog", "internal/catalog.go:Catalog.AddNewTableSpec", "internal/stmt_action.go:DropStmtAction.exec", "internal/wildcard_table.go:Catalog.createWildcardTable"])
p("C227","A table that nobody drops is found",
  "A query that names a table which exists before and after, and which no statement creates or drops, finds it whatever the other connections do.",
  "every catalog with two tables a and b, DROP TABLE a beside a query of b",
  "The outcome depends on how the goroutines interleave; a test sees a few schedules, the claim is about all of them and any number of goroutines.",
  ["internal/catalog.go:Catalog.resetCatalog", "internal/catalog.go:Catalog.FindTable", "internal/stmt_action.go:DropStmtAction.exec"])
p("C228","While nobody drops anything, every table is found",
  "If no goroutine runs DROP or removes a temporary object, each lookup of a table that existed at the start finds it.",
  "every starting catalog, every number of goroutines running statements other than DROP, every schedule",
  "The outcome depends on how the goroutines interleave; a test sees a few schedules, the claim is about all of them and any number of goroutines.",
  ["internal/catalog.go:Catalog.Sync", "internal/catalog.go:Catalog.AddNewTableSpec", "internal/catalog.go:Catalog.FindTable"])
p("C229","Concurrent changes end as some serial order of them would",
  "When all goroutines are done, the set of tables is what running their operations one after the other gives, in some order that keeps the order of each goroutine, and the parts of the catalog agree with one another.",
  "every starting catalog, every list of operations of every number of goroutines, every schedule in which all finish",
  "The outcome depends on how the goroutines interleave; a test sees a few schedules, the claim is about all of them and any number of goroutines.",
  ["internal/catalog.go:Catalog.Sync", "internal/catalog.go:Catalog.AddNewTableSpec", "internal/catalog.go:Catalog.resetCatalog", "internal/catalog.go:Catalog.DeleteTableSpec"])
p("C230","Statements do not deadlock on the catalog",
  "At every moment, unless all goroutines are done or the process was aborted, some goroutine can take its next step.",
  "every starting catalog, every list of operations of every number of goroutines and every schedule",
  "The outcome depends on how the goroutines interleave; a test sees a few schedules, the claim is about all of them and any number of goroutines.",
  ["internal/catalog.go:Catalog.Sync", "internal/catalog.go:Catalog.AddNewTableSpec", "internal/catalog.go:Catalog.DeleteTableSpec"])
p("C231","Temporary tables are seen only by the script that creates them",
  "A table made by CREATE TEMP TABLE is not visible to other connections.",
  "every starting catalog and every name not in it; CREATE TEMP TABLE beside a query of the name on another connection",
  "The outcome depends on how the goroutines interleave; a test sees a few schedules, the claim is about all of them and any number of goroutines.",
  ["internal/stmt_action.go:CreateTableStmtAction.Cleanup", "internal/catalog.go:Catalog.AddNewTableSpec", "internal/catalog.go:Catalog.FindTable"])
p("C232","A prepared INSERT, UPDATE, DELETE or query behaves as executed directly",
  "For a prepared INSERT, UPDATE, DELETE or query and positional arguments, exactly as many as it has parameters: Exec or Query on the prepared statement makes the same call to SQLite with the same values, fails exactly when executing the text directly fails, reports the same number of rows, and does not crash the process.",
  "every such statement, every list of positional arguments of the right length, every answer of SQLite",
  "Tests prepare a few statements with a few arguments; the claim ranges over every statement, argument list and answer of the database",
  ["internal/stmt.go:DMLStmt.Exec", "internal/stmt.go:QueryStmt.Query", "internal/stmt_action.go:DMLStmtAction.Prepare"])
p("C233","A prepared CREATE TABLE or CREATE VIEW can be executed",
  "Exec on a prepared CREATE TABLE or CREATE VIEW creates the table or view; preparing alone changes nothing.",
  "every CREATE TABLE or CREATE VIEW, every answer of SQLite",
  "Tests prepare a few statements with a few arguments; the claim ranges over every statement, argument list and answer of the database",
  ["internal/stmt.go:CreateTableStmt.Exec", "internal/stmt_action.go:CreateTableStmtAction.Prepare"])
p("C234","Prepared DROP, TRUNCATE, MERGE, BEGIN and COMMIT can be executed",
  "Exec on a prepared DROP, TRUNCATE, MERGE, BEGIN TRANSACTION or COMMIT TRANSACTION does what executing its text does.",
  "every such statement",
  "Tests prepare a few statements with a few arguments; the claim ranges over every statement, argument list and answer of the database",
  ["internal/stmt_action.go:DropStmtAction.Prepare", "internal/stmt_action.go:TruncateStmtAction.Prepare", "internal/stmt_action.go:MergeStmtAction.Prepare"])
p("C235","Named arguments of prepared statements",
  "A prepared statement with named parameters accepts sql.Named arguments, as the text executed directly does.",
  "every statement and every argument list with a named argument",
  "Tests prepare a few statements with a few arguments; the claim ranges over every statement, argument list and answer of the database",
  ["internal/stmt.go", "driver.go:ZetaSQLiteConn.PrepareContext"])
p("C236","Preparing a script",
  "Executing a prepared script of several statements does what executing its text does; a script of one statement is prepared as the statement.",
  "every script",
  "Tests prepare a few statements with a few arguments; the claim ranges over every statement, argument list and answer of the database",
  ["driver.go:ZetaSQLiteConn.PrepareContext"])
p("C237","A prepared CREATE FUNCTION",
  "Executing a prepared CREATE FUNCTION registers the function as executing its text does (a temporary one only for the call), and RowsAffected of the result can be asked.",
  "every CREATE FUNCTION and every answer of the catalog",
  "Tests prepare a few statements with a few arguments; the claim ranges over every statement, argument list and answer of the database",
  ["internal/stmt.go:CreateFunctionStmt.Exec"])
p("C238","RowsAffected is the number of changed rows",
  "RowsAffected of a successful Exec is the number of rows that SQLite changed in the last statement.",
  "every script that ends in INSERT, UPDATE, DELETE, TRUNCATE or MERGE",
  "Tests prepare a few statements with a few arguments; the claim ranges over every statement, argument list and answer of the database",
  ["internal/result.go:Result.RowsAffected", "internal/stmt_action.go:DMLStmtAction.ExecContext"])
p("C239","Exec succeeds only if everything was done, and otherwise says why",
  "If Exec of a script succeeds then every statement made all of its calls to SQLite and the catalog, in order, followed by the removal of all temporary objects, and nothing else. If it fails, the text of the error contains that of a failed call or of the arguments' error, and of every failed removal. It does not crash the process if the arguments can be read.",
  "every script, argument list, and every pattern of failing calls",
  "A test can make one call fail in one script; the claim is about every script and every combination of failures",
  ["driver.go:ZetaSQLiteConn.ExecContext", "internal/error.go:ErrorGroup"])
p("C240","errors.Is and errors.As find the cause",
  "errors.Is and errors.As on an error of Exec or Query find the error of SQLite, the catalog or the context that caused it.",
  "every script and every failing call",
  "Tests prepare a few statements with a few arguments; the claim ranges over every statement, argument list and answer of the database",
  ["internal/error.go:ErrorGroup", "driver.go:ZetaSQLiteConn.ExecContext"])
p("C241","BEGIN TRANSACTION ... COMMIT TRANSACTION in a script is atomic",
  "If a statement between BEGIN TRANSACTION and COMMIT TRANSACTION of a script fails, the statements before it leave no effect.",
  "every script",
  "Tests prepare a few statements with a few arguments; the claim ranges over every statement, argument list and answer of the database",
  ["internal/stmt_action.go:BeginStmtAction", "internal/stmt_action.go:CommitStmtAction"])
p("C242","Explain mode only explains",
  "In explain mode a query is explained instead of run, and the process does not crash.",
  "every query and script",
  "Tests prepare a few statements with a few arguments; the claim ranges over every statement, argument list and answer of the database",
  ["internal/stmt_action.go:QueryStmtAction.QueryContext", "internal/rows.go:Rows.Close"])
p("C243","Auto index mode works for every table",
  "With auto index mode on, CREATE TABLE succeeds whenever it does with auto index mode off.",
  "every table path and column name without backticks",
  "Tests use tables with plain names",
  ["internal/stmt_action.go:CreateTableStmtAction.createIndexAutomatically"])
p("C244","ChangedCatalogFromRows works on the rows of every query",
  "ChangedCatalogFromRows on the rows of a successful query does not crash the process.",
  "every query, direct or prepared",
  "Tests prepare a few statements with a few arguments; the claim ranges over every statement, argument list and answer of the database",
  ["catalog.go:ChangedCatalogFromRows", "internal/rows.go:Rows.ChangedCatalog"])
p("C245","LEFT JOIN UNNEST keeps rows with empty arrays",
  "A row of t whose array is empty or NULL appears once, with NULL for the element, in SELECT ... FROM t LEFT JOIN UNNEST(t.a) AS x.",
  "all tables whose arrays are all empty",
  "All contents of the table: a test with non-empty arrays passes.",
  ["internal/formatter.go:ArrayScanNode.FormatSQL"])
p("C246","A DELETE condition with UNNEST reads the table's columns whatever they are called",
  "In DELETE FROM t WHERE EXISTS (SELECT 1 FROM UNNEST(...) AS x WHERE x = t.c), and likewise in UPDATE, t.c is the column of the table, also when c is value, key or another name that json_each uses.",
  "all tables with a column called value",
  "All column names: only those shared with json_each are misread.",
  ["internal/formatter.go:ArrayScanNode.FormatSQL", "internal/formatter.go:DeleteStmtNode", "internal/formatter.go:UpdateStmtNode"])
p("C247","INSERT ... VALUES stores each value in its column",
  "INSERT INTO t (columns) VALUES (...), ... computes each value as the expression means and stores it in the column it is listed for, NULL in the columns that are not listed. It fails, changing nothing, exactly when the table with the new rows would violate NOT NULL or PRIMARY KEY.",
  "all table definitions without AS, all states of the table that satisfy its constraints, all lists of columns and all rows of expressions without subqueries",
  "Tests insert a few rows into a few tables; the claim is about all definitions, rows and expressions.",
  ["internal/formatter.go:InsertStmtNode.FormatSQL", "internal/spec.go:TableSpec.SQLiteSchema"])
p("C248","INSERT ... SELECT stores the rows of the query",
  "INSERT INTO t (columns) SELECT ... stores the rows of the query, its columns by position, also when the query reads t. It fails, changing nothing, exactly when the table with the new rows would violate NOT NULL or PRIMARY KEY.",
  "all table definitions without AS, all states, all queries in the shapes of C137 whose outermost scan is a SELECT",
  "Tests insert a few rows into a few tables; the claim is about all definitions, rows and expressions.",
  ["internal/formatter.go:InsertStmtNode.FormatSQL"])
p("C249","NOT NULL and PRIMARY KEY hold after every history",
  "After any sequence of INSERT, UPDATE and DELETE statements, successful or failing, a table created without AS has no NULL in a NOT NULL column and no two rows with the same key.",
  "all definitions, all sequences of statements of any length, all functions and other tables, which may change between statements",
  "Tests run a few statements; the claim is an invariant of all histories.",
  ["internal/spec.go:TableSpec.SQLiteSchema", "internal/spec.go:ColumnSpec.SQLiteSchema", "internal/formatter.go:UpdateStmtNode.FormatSQL"])
p("C250","CREATE TABLE (columns) AS SELECT keeps NOT NULL and PRIMARY KEY",
  "A table created with CREATE TABLE t (columns, PRIMARY KEY (...)) AS SELECT ... has the constraints that are written.",
  "all definitions and queries",
  "Tests insert a few rows into a few tables; the claim is about all definitions, rows and expressions.",
  ["internal/spec.go:TableSpec.SQLiteSchema"])
p("C251","UPDATE fails only if its result violates a constraint",
  "UPDATE gives each row its new values and fails, changing nothing, exactly when the table with the new values would violate NOT NULL or PRIMARY KEY.",
  "all tables, all UPDATE statements without FROM",
  "Tests insert a few rows into a few tables; the claim is about all definitions, rows and expressions.",
  ["internal/formatter.go:UpdateStmtNode.FormatSQL", "internal/formatter.go:UpdateItemNode.FormatSQL"])
p("C252","A key column may have any name",
  "A table whose key columns are columns of the table can be created whatever their names are.",
  "all definitions",
  "Tests use a handful of names.",
  ["internal/spec.go:TableSpec.SQLiteSchema"])
p("C253","DEFAULT is the default value",
  "In INSERT ... VALUES and UPDATE ... SET, DEFAULT stands for the default value of the column, NULL when it has none.",
  "all statements with DEFAULT at any place",
  "Tests insert a few rows into a few tables; the claim is about all definitions, rows and expressions.",
  ["internal/formatter.go:DMLDefaultNode.FormatSQL", "internal/formatter.go:DMLValueNode.FormatSQL"])
p("C254","INSERT OR IGNORE, OR REPLACE and OR UPDATE do not fail on an existing key",
  "With OR IGNORE, OR REPLACE or OR UPDATE an INSERT whose key exists skips or changes the row instead of failing.",
  "all tables and rows",
  "Tests insert a few rows into a few tables; the claim is about all definitions, rows and expressions.",
  ["internal/formatter.go:InsertStmtNode.FormatSQL"])
p("C255","ASSERT_ROWS_MODIFIED is checked",
  "A statement with ASSERT_ROWS_MODIFIED n fails unless it changes n rows.",
  "all statements and n",
  "Tests insert a few rows into a few tables; the claim is about all definitions, rows and expressions.",
  ["internal/formatter.go:InsertStmtNode.FormatSQL", "internal/formatter.go:UpdateStmtNode.FormatSQL"])
p("C256","A column STRING(L) takes no longer texts",
  "A value longer than the length in the type of its column is refused.",
  "all tables, lengths and texts",
  "Tests insert a few rows into a few tables; the claim is about all definitions, rows and expressions.",
  ["internal/spec.go:newColumnsFromDef"])
p("C257","The type of a column does not change what is stored",
  "A value written to a column of its type is read back as the same Go value: neither the conversions SQLite makes for the declared type of the column nor those of the driver touch it.",
  "all column types and all values of the type, however long",
  "Tests store a few values per type; SQLite converts texts that look like numbers, so the claim depends on every value's encoding.",
  ["internal/spec.go:ColumnSpec.SQLiteSchema", "internal/encoder.go:EncodeValue"])
p("C258","SUM over a frame is the exact sum",
  "SUM(x) OVER (... ROWS BETWEEN ...) of INT64 or NUMERIC is the exact sum of the non-NULL values of the frame, NULL if there is none.",
  "all tables of the common key types, all ROWS frames that contain the current row, all rows; INT64 totals in range",
  "A frame slides over every row of every table; tests fix a few tables and frames.",
  ["internal/function_window.go:WINDOW_SUM"])
p("C259","SUM over a frame does not silently overflow",
  "When the INT64 sum over a frame is out of the range of INT64 the query fails.",
  "all tables, all ROWS frames that contain the current row, all totals out of range",
  "Overflow depends on all values of the frame together.",
  ["internal/function_window.go:WINDOW_SUM", "internal/value.go:IntValue.Add"])
p("C260","MIN and MAX over a frame",
  "MIN(x) OVER and MAX(x) OVER are a value of the frame with none before, respectively after it, NULL if every value is NULL.",
  "all tables, all ROWS frames that contain the current row, all columns of one orderable type",
  "A frame slides over every row of every table; tests fix a few tables and frames.",
  ["internal/function_window.go:WINDOW_MIN", "internal/function_window.go:WINDOW_MAX"])
p("C261","COUNTIF over a frame",
  "COUNTIF(b) OVER is the number of rows of the frame where b is TRUE.",
  "all tables, all ROWS frames that contain the current row, all BOOL columns with NULLs",
  "A frame slides over every row of every table; tests fix a few tables and frames.",
  ["internal/function_window.go:WINDOW_COUNTIF"])
p("C262","STRING_AGG over a frame",
  "STRING_AGG(s, d) OVER is the non-NULL strings of the frame in order with d between them, NULL if there is none.",
  "all tables, all ROWS frames that contain the current row, all delimiters",
  "A frame slides over every row of every table; tests fix a few tables and frames.",
  ["internal/function_window.go:WINDOW_STRING_AGG", "internal/function_bind.go:bindWindowStringAgg"])
p("C263","DISTINCT over a frame",
  "COUNT, SUM and ARRAY_AGG with DISTINCT OVER use each value of the frame once.",
  "all tables, all ROWS frames that contain the current row, all values that have different texts",
  "A frame slides over every row of every table; tests fix a few tables and frames.",
  ["internal/function_window.go:WINDOW_COUNT", "internal/function_window.go:WINDOW_SUM", "internal/function_window.go:WINDOW_ARRAY_AGG"])
p("C264","AVG(DISTINCT) over a frame",
  "AVG(DISTINCT x) OVER is the sum of the different values of the frame over how many there are.",
  "all tables, all ROWS frames that contain the current row, all FLOAT64 values",
  "A frame slides over every row of every table; tests fix a few tables and frames.",
  ["internal/function_window.go:WINDOW_AVG"])
p("C265","An aggregate over the whole partition is the aggregate of the group",
  "COUNT, SUM, MIN and MAX over the whole partition give every row what the aggregate function gives for the group of the rows of its partition.",
  "all tables of the common key types, all rows, the rows of the partition in any order",
  "It relates two implementations on every table.",
  ["internal/function_window.go:WINDOW_SUM", "internal/function_window.go:WINDOW_COUNT", "internal/function_window.go:WINDOW_MAX", "internal/function_window.go:WINDOW_MIN", "internal/function_aggregate.go:SUM"])
p("C266","PERCENTILE_DISC is an order statistic",
  "PERCENTILE_DISC(x, f) OVER is the smallest value of the partition at or below which lies at least the share f of the values.",
  "all tables of the common key types, all partitions, all percentiles between 0 and 1",
  "It depends on the order of all values and on float rounding.",
  ["internal/function_window.go:WINDOW_PERCENTILE_DISC"])
p("C267","Percentiles of a partition without values",
  "PERCENTILE_CONT and PERCENTILE_DISC over a partition where every value is NULL are NULL.",
  "all tables with such a partition, all percentiles between 0 and 1",
  "The partition is one among any number of others.",
  ["internal/function_window.go:WINDOW_PERCENTILE_DISC", "internal/function_window.go:WINDOW_PERCENTILE_CONT"])
p("C268","PERCENTILE_CONT interpolates the values",
  "PERCENTILE_CONT(x, f) OVER is the value at row 1 + f (n - 1) of the sorted values, interpolated; so the least value for f = 0 and the value itself for one row.",
  "all tables of the common key types, all partitions",
  "It depends on the order and the sign of all values.",
  ["internal/function_window.go:WINDOW_PERCENTILE_CONT"])
p("C269","The code of a JavaScript function reaches the engine unchanged",
  "CREATE FUNCTION ... LANGUAGE js AS code: every call hands the engine exactly the code, the return type and the parameter names of the definition, whatever characters the code holds (quotes, @name, comments, newlines) and whatever the arguments are.",
  "every code text, return type, list of parameter names and list of argument texts",
  "the generated SQL is built by pasting and replacing text; a test tries a few codes, not all texts",
  ["internal/spec.go:newFunctionSpec", "internal/spec.go:FunctionSpec.CallSQL"])
p("C270","The arguments of a JavaScript function arrive in order",
  "A call f(e1, ..., en) of a JavaScript function evaluates each ei once and binds it to the i-th parameter, whatever the parameters are called.",
  "every list of parameter names and argument texts",
  "depends on how names overlap; tests use names that do not",
  ["internal/spec.go:newFunctionSpec", "internal/spec.go:FunctionSpec.CallSQL"])
p("C271","A JavaScript function that returns its argument gives it back",
  "For f(x T) RETURNS T LANGUAGE js AS 'return x', f(v) = v for every v of INT64, FLOAT64, BOOL, STRING, DATE, DATETIME, NUMERIC and TIMESTAMP.",
  "every type of the list and every value of it, for every engine that follows ECMAScript",
  "the values are unbounded; tests use small ones",
  ["internal/function_javascript.go:EVAL_JAVASCRIPT", "internal/function_javascript.go:castJavaScriptValue"])
p("C272","A JavaScript function that returns null returns NULL",
  "A JavaScript function that returns null or undefined returns NULL, for every return type.",
  "every code, return type, argument list and engine",
  "must hold for every type and code",
  ["internal/function_javascript.go:EVAL_JAVASCRIPT", "internal/function_javascript.go:castJavaScriptValue"])
p("C273","Arrays and objects returned by JavaScript are converted by element and by name",
  "An array becomes the ARRAY of its elements in order, an object the STRUCT whose fields are the properties of their names (missing: NULL, others: ignored), null inside them is NULL; to any depth. (Objects with at least one named property; the outermost value of an ARRAY function is an array.)",
  "every type made of INT64, FLOAT64, BOOL, STRING, ARRAY and STRUCT, and every document, of any size and depth",
  "documents of any depth",
  ["internal/function_javascript.go:EVAL_JAVASCRIPT", "internal/function_javascript.go:castJavaScriptValue", "internal/encoder.go:CastValue", "internal/encoder.go:valueFromGoReflectValue"])
p("C274","The order of the properties of a returned object does not matter",
  "A STRUCT function gives the same result for objects that differ in the order of their properties only; in particular the result does not depend on the order in which Go iterates over a map.",
  "every struct type and every pair of orders of the properties, with any values",
  "Go's map order is random; a test sees a few orders",
  ["internal/function_javascript.go:EVAL_JAVASCRIPT", "internal/function_javascript.go:castJavaScriptValue", "internal/encoder.go:valueFromGoReflectValue"])
p("C275","A JavaScript function does not crash the process",
  "Whatever a JavaScript function returns, the query ends with a result or an error.",
  "every code, return type, argument list and engine",
  "must hold for every returned value",
  ["internal/function_javascript.go:EVAL_JAVASCRIPT", "internal/function_javascript.go:castJavaScriptValue"])
p("C276","The code of a JavaScript function may end in a comment",
  "If the braces of the code match, so do those of the program that is run, also when the code ends in a // comment.",
  "every code without literals, and every comment",
  "tests end their code in a newline or without a comment",
  ["internal/function_javascript.go:EVAL_JAVASCRIPT"])
p("C277","JavaScript functions returning dates and times accept exactly the texts of one",
  "A DATE, DATETIME or TIME function succeeds exactly when the text of what it returns names an existing day, date and time or time of day, and then returns that.",
  "every returned value and engine",
  "every text",
  ["internal/function_javascript.go:EVAL_JAVASCRIPT", "internal/function_javascript.go:castJavaScriptValue"])
p("C278","A NUMERIC JavaScript function fails when it returns no number",
  "A NUMERIC function that returns something that is not a number fails.",
  "every returned value and engine",
  "every value",
  ["internal/function_javascript.go:EVAL_JAVASCRIPT", "internal/function_javascript.go:castJavaScriptValue"])
p("C279","An object without properties is a STRUCT of NULLs",
  "A STRUCT function that returns {} gives a STRUCT with all the fields of its type, each NULL.",
  "every struct type and engine",
  "every type",
  ["internal/function_javascript.go:EVAL_JAVASCRIPT", "internal/function_javascript.go:castJavaScriptValue", "internal/encoder.go:CastValue"])
p("C280","GENERATE_TIMESTAMP_ARRAY is the arithmetic series",
  "GENERATE_TIMESTAMP_ARRAY(a, b, INTERVAL s part) is a, a + s parts, a + 2s parts, ... as far as b, whichever of a and b is later, and empty if the first element would already be beyond b.",
  "all timestamps a and b, all INT64 steps other than 0 and all six parts",
  "The step is a product of 64-bit integers, so it can wrap; no list of examples covers every range and step.",
  ["internal/function_array.go:GENERATE_TIMESTAMP_ARRAY", "internal/value.go:TimestampValue.AddValueWithPart"])
p("C281","GENERATE_TIMESTAMP_ARRAY returns",
  "Every call of GENERATE_TIMESTAMP_ARRAY returns after finitely many steps.",
  "all timestamps, steps and parts",
  "A test that hangs shows one input; that no input hangs needs a proof of termination.",
  ["internal/function_array.go:GENERATE_TIMESTAMP_ARRAY"])
p("C282","GENERATE_TIMESTAMP_ARRAY of NULL, and with step 0",
  "GENERATE_TIMESTAMP_ARRAY with a NULL argument is NULL, and with a step of 0 an error.",
  "all arguments, parts and positions of the NULL",
  "Each position of a NULL takes another path, for every value of the others.",
  ["internal/function_array.go:GENERATE_TIMESTAMP_ARRAY", "internal/function_bind.go:bindGenerateTimestampArray"])
p("C283","EXTRACT reads the parts of an INTERVAL",
  "EXTRACT(part FROM i) of an interval i is the part of i in its Y-M D H:M:S.F form, with its sign, for YEAR, MONTH, DAY, HOUR, MINUTE, SECOND, MILLISECOND and MICROSECOND, and an error for any other part.",
  "all intervals in canonical form and all parts",
  "The parts have to agree with the length of the interval for every combination of fields and signs.",
  ["internal/function.go:EXTRACT"])
p("C284","A query over WITH entries returns what it means",
  "A SELECT with WITH, whose entries and main query are built in any nesting from tables, references to earlier entries, joins, filters, projections, ORDER BY, LIMIT, GROUP BY, set operations, UNNEST and correlated subqueries, is accepted and returns the rows of the query with the entry's subquery in place of each reference, however often an entry is used. Entry names are plain identifiers, no two equal without regard to case, and no table of the statement is named like an entry.",
  "all entries, main queries, numbers of references, databases, names of columns, and functions called",
  "The trees, the number of entries and of uses, and the data are unbounded.",
  ["internal/formatter.go:WithScanNode.FormatSQL", "internal/formatter.go:WithEntryNode.FormatSQL", "internal/formatter.go:WithRefScanNode.FormatSQL"])
p("C285","Statistics ignore NULL",
  "STDDEV_POP, STDDEV_SAMP, VAR_POP, VAR_SAMP, CORR, COVAR_POP and COVAR_SAMP are computed from the rows without a NULL argument, in order and each once; without such a row the result is NULL.",
  "every list of rows with INT64, FLOAT64 or NULL arguments, and every function of the statistics library",
  "Which rows of a group have NULLs, in one argument or both, is unbounded.",
  ["internal/function_aggregate.go:CORR", "internal/function_aggregate.go:STDDEV_POP", "internal/function_aggregate.go:VAR_SAMP", "internal/function_bind.go:bindCorr"])
p("C286","Sample statistics of fewer than two rows are NULL",
  "STDDEV_SAMP, VAR_SAMP, CORR and COVAR_SAMP return NULL when fewer than two rows have no NULL argument.",
  "every list of rows and every function of the statistics library",
  "A test tries one value; the claim is about every value and library.",
  ["internal/function_aggregate.go:STDDEV_SAMP.Done", "internal/function_aggregate.go:VAR_SAMP.Done", "internal/function_aggregate.go:CORR.Done", "internal/function_aggregate.go:COVAR_SAMP.Done"])
p("C287","COVAR_POP is the population covariance",
  "COVAR_SAMP divides the sum of the products of deviations by the number of rows less one, COVAR_POP by the number of rows.",
  "every list of two or more INT64 pairs and every covariance function of the library",
  "Whether some library function could make both right is a statement about all functions.",
  ["internal/function_aggregate.go:COVAR_POP.Done", "internal/function_aggregate.go:COVAR_SAMP.Done"])
p("C288","DISTINCT compares all arguments",
  "An aggregate of two arguments with DISTINCT is computed from the distinct pairs.",
  "every list of pairs",
  "Which pairs share a first value is unbounded.",
  ["internal/function_bind.go:Aggregator.Step", "internal/function_aggregate.go:CORR.Step"])
p("C289","APPROX_COUNT_DISTINCT counts the distinct values",
  "APPROX_COUNT_DISTINCT returns exactly the number of distinct values that are not NULL, 0 without any.",
  "every list of INT64 or STRING values and NULLs, and of values of other types whose texts differ when they do",
  "Multiplicities and orders of rows are unbounded.",
  ["internal/function_aggregate.go:APPROX_COUNT_DISTINCT"])
p("C290","APPROX_QUANTILES begins with the least and ends with the greatest value",
  "APPROX_QUANTILES(x, n) ignores NULLs; its first element is the least value and its last the greatest, whatever the order of the rows.",
  "every list of rows and every n",
  "Orders of rows are unbounded.",
  ["internal/function_aggregate.go:APPROX_QUANTILES.Done"])
p("C291","APPROX_QUANTILES has n + 1 elements",
  "APPROX_QUANTILES(x, n) returns n + 1 elements for a group with a value.",
  "every list of rows and every n",
  "It depends on accumulated rounding, for every n, and on no data.",
  ["internal/function_aggregate.go:APPROX_QUANTILES.Done"])
p("C292","APPROX_TOP_COUNT returns the most frequent values",
  "APPROX_TOP_COUNT(x, n) with n at most the number of distinct values returns n of them, each once with the number of rows that have it, most frequent first, NULL counting as a value; no value left out is more frequent than one returned; among equally frequent values every choice and order is possible.",
  "every list of INT64, STRING, BOOL, DATE, DATETIME, TIME or TIMESTAMP values and NULLs, every n, every order of the map and every outcome of the sort",
  "The order of a Go map and of an unstable sort differ from run to run.",
  ["internal/function_aggregate.go:APPROX_TOP_COUNT", "internal/function_bind.go:bindApproxTopCount"])
p("C293","APPROX_TOP_SUM returns the heaviest values",
  "APPROX_TOP_SUM(x, w, n) with n at most the number of distinct values returns n of them, each once with the sum of its weights that are not NULL, or NULL without any, heaviest first and NULL last; no value left out is heavier than one returned.",
  "every list of rows with INT64 weights whose sums do not overflow, values as in C292, every n, every order of the map and outcome of the sort",
  "The order of a Go map and of an unstable sort differ from run to run.",
  ["internal/function_aggregate.go:APPROX_TOP_SUM", "internal/function_bind.go:bindApproxTopSum"])
p("C294","APPROX_TOP_COUNT works for every groupable type and number",
  "APPROX_TOP_COUNT(x, n) returns all values when there are fewer than n, and counts equal NUMERIC and equal BYTES values together.",
  "every list of values and every n",
  "Values and counts are unbounded.",
  ["internal/function_aggregate.go:APPROX_TOP_COUNT.Step", "internal/function_aggregate.go:APPROX_TOP_COUNT.Done", "internal/value.go:NumericValue", "internal/value.go:BytesValue"])
p("C295","Merging sketches counts all rows",
  "HLL_COUNT.MERGE over the sketches of groups of rows returns what HLL_COUNT.EXTRACT returns for the sketch of all the rows, and HLL_COUNT.MERGE_PARTIAL returns that sketch; NULL sketches are skipped and without a sketch the count is 0.",
  "every partition of every list of rows into groups, and every sketch library whose sketches survive being stored and whose union agrees with adding hashes",
  "Partitions and rows are unbounded.",
  ["internal/function_aggregate.go:HLL_COUNT_INIT", "internal/function_aggregate.go:HLL_COUNT_MERGE", "internal/function_aggregate.go:HLL_COUNT_MERGE_PARTIAL", "internal/function_aggregate.go:HLL_COUNT_EXTRACT"])
p("C296","HLL_COUNT.INIT ignores NULL and refuses bad precisions",
  "HLL_COUNT.INIT(x, p) returns the sketch of the values that are not NULL, NULL without any, and an error for a precision the library refuses.",
  "every list of rows, every precision and every sketch library",
  "Values, precisions and libraries are unbounded.",
  ["internal/function_aggregate.go:HLL_COUNT_INIT.Step", "internal/function_bind.go:bindHllCountInit"])
p("C297","A math function of NULL is NULL",
  "ABS, SIGN, IS_INF, IS_NAN, IEEE_DIVIDE, SQRT, POW, EXP, LN, LOG, LOG10, the SAFE_ functions, TRUNC, CEIL, FLOOR, the trigonometric functions and the operators + - * / return NULL when any argument is NULL, and so does ROUND when its first argument is. With no NULL argument the only NULL result among them is SAFE_DIVIDE's, for a divisor of zero.",
  "every function of the list, every list of FLOAT64 or NULL arguments of a length it takes, every mathematical library",
  "Thirty-eight functions with every combination of NULL and values.",
  ["function_bind.go:existsNull", "function_bind.go:bindRound", "function_math.go:SAFE_DIVIDE"])
p("C298","ROUND with a NULL precision is NULL",
  "ROUND(x, NULL) is NULL for every x.",
  "every first argument, NULL or not",
  "No test passes a NULL precision.",
  ["function_bind.go:bindRound"])
p("C299","LOG takes its base into account",
  "LOG(x) is the natural logarithm LN(x), and LOG(x, y) is the logarithm of x to the base y.",
  "every pair of numbers",
  "The claim is about every float64, and the tests use a handful.",
  ["function_math.go:LOG", "function_bind.go:bindLog"])
p("C300","TRUNC cuts off digits",
  "TRUNC(x) is x rounded toward zero to an integer, and TRUNC(x, n) is x rounded toward zero to n digits after the decimal point.",
  "every finite FLOAT64 and every n",
  "The claim is about every float64, and the tests use a handful.",
  ["function_math.go:TRUNC", "function_bind.go:bindTrunc"])
p("C301","FLOOR and CEIL of FLOAT64 are exact",
  "For every finite FLOAT64 x, FLOOR(x) is the greatest integer not above x, and CEIL(x) and CEILING(x) are the least integer not below x, exactly and without an error. An infinity or NaN is returned unchanged.",
  "every FLOAT64",
  "The claim is about every float64, and the tests use a handful.",
  ["function_math.go:FLOOR", "function_math.go:CEIL", "function_bind.go:bindCeil"])
p("C302","SIGN is the sign of the number",
  "SIGN(x) is -1, 0 or 1 as x is negative, zero or positive, for every FLOAT64 x other than NaN. SIGN of NaN is NaN.",
  "every FLOAT64, either zero included",
  "The claim is about every float64, and the tests use a handful.",
  ["function_math.go:SIGN"])
p("C303","IEEE_DIVIDE is division by IEEE 754",
  "IEEE_DIVIDE(x, y) denotes the same number as the IEEE 754 quotient of x and y, for every pair of FLOAT64 values, zeros of either sign, infinities and NaN included.",
  "every pair of FLOAT64 values",
  "The claim is about every float64, and the tests use a handful.",
  ["function_math.go:IEEE_DIVIDE"])
p("C304","ABS, SAFE_NEGATE, IS_INF and IS_NAN of FLOAT64 are exact",
  "ABS(x) is the absolute value and SAFE_NEGATE(x) the negation of x. IS_INF(x) is TRUE exactly when x is further from zero than every finite FLOAT64. IS_NAN(x) is TRUE exactly when x = x is FALSE.",
  "every FLOAT64",
  "The claim is about every float64, and the tests use a handful.",
  ["function_math.go:ABS", "function_math.go:SAFE_NEGATE", "function_math.go:IS_INF", "function_math.go:IS_NAN"])
p("C305","FLOAT64 overflow is reported",
  "x + y, x - y and x * y of finite FLOAT64 values whose result does not fit a FLOAT64 are an error, and SAFE_ADD, SAFE_SUBTRACT and SAFE_MULTIPLY return NULL for them.",
  "every pair of finite FLOAT64 values",
  "The claim is about every float64, and the tests use a handful.",
  ["value.go:FloatValue.Add", "value.go:FloatValue.Mul", "function_math.go:SAFE_ADD", "function_math.go:SAFE_MULTIPLY"])
p("C306","Arguments outside a function's domain are an error",
  "SQRT, LN, LOG10, EXP, POW, ACOS, ASIN and the other mathematical functions return the value of the function they are named after, and an error for an argument outside its domain, such as SQRT of a negative number or LN of zero.",
  "every FLOAT64 argument, every mathematical library",
  "The claim is about every float64, and the tests use a handful.",
  ["function_math.go:SQRT", "function_math.go:LN", "function_math.go:POW", "function_math.go:ACOS"])
p("C307","A SAFE_ function is its operator with NULL for errors",
  "For FLOAT64 x and y, SAFE_ADD, SAFE_SUBTRACT, SAFE_MULTIPLY and SAFE_DIVIDE return what x + y, x - y, x * y and x / y return, and NULL exactly where the operator fails. x / y fails exactly when y is zero of either sign.",
  "every pair of FLOAT64 values",
  "The claim is about every float64, and the tests use a handful.",
  ["function_math.go:SAFE_DIVIDE", "function_math.go:SAFE_ADD", "value.go:FloatValue.Div"])
p("C308","NET.REG_DOMAIN is NET.PUBLIC_SUFFIX and one label",
  "Whenever NET.PUBLIC_SUFFIX(v) is a string s, NET.HOST(v) is a host name (in brackets for an IPv6 address) that ends in s, and NET.REG_DOMAIN(v) is one label, a point and s, again an end of the host name, or NULL when the host name is s itself. Where NET.PUBLIC_SUFFIX(v) is NULL or fails, so does NET.REG_DOMAIN(v).",
  "every text, every URL parser and public suffix list",
  "The claim is about every text and every behaviour of the libraries underneath.",
  ["function_net.go:NET_REG_DOMAIN", "function_net.go:NET_PUBLIC_SUFFIX", "function_net.go:publicSuffix"])
p("C309","NET.PUBLIC_SUFFIX is the end of the host name as written",
  "If the lower-cased, ASCII-encoded host name has a registry-managed public suffix of k labels, NET.PUBLIC_SUFFIX is the last k labels of the host name as they are written in the argument. A host name with two points in a row between other characters, or without a registry-managed suffix, gives NULL.",
  "every text, every URL parser, encoder and public suffix list",
  "The claim is about every text and every behaviour of the libraries underneath.",
  ["function_net.go:publicSuffix", "function_net.go:NET_PUBLIC_SUFFIX", "function_net.go:parseURL"])
p("C310","NET and PARSE_NUMERIC functions of NULL are NULL",
  "NET.HOST, NET.PUBLIC_SUFFIX, NET.REG_DOMAIN, NET.IP_NET_MASK, NET.IP_TRUNC, NET.IPV4_FROM_INT64, NET.IPV4_TO_INT64, PARSE_NUMERIC and PARSE_BIGNUMERIC return NULL when an argument is NULL.",
  "every function of the list and every other argument",
  "No test passes NULL to most of them.",
  ["function_bind.go:bindNetPublicSuffix", "function_bind.go:bindNetIpTrunc", "function_bind.go:bindParseNumeric", "function_bind.go:bindNetHost"])
p("C311","NET.HOST is the host of the URL",
  "NET.HOST(v) is the host name of the URL v, or of //v without surrounding space when v has no host, in brackets exactly when the host is written in brackets. It is NULL when there is no URL or no host name, and never an error.",
  "every text and every URL parser",
  "The claim is about every text and every behaviour of the libraries underneath.",
  ["function_net.go:NET_HOST", "function_net.go:parseURL"])
p("C312","Hashes of STRING and BYTES agree",
  "MD5, SHA1, SHA256, SHA512 and FARM_FINGERPRINT give the same for a STRING and for the BYTES of its UTF-8 encoding, and NULL for NULL. FARM_FINGERPRINT is the INT64 with the 64 bits of the unsigned fingerprint.",
  "every string of bytes and every hash function",
  "The claim is about every text and every behaviour of the libraries underneath.",
  ["function_hash.go:MD5", "function_hash.go:FARM_FINGERPRINT", "function_bind.go:bindFarmFingerprint"])
p("C313","PARSE_NUMERIC reads back printed numbers",
  "PARSE_NUMERIC and PARSE_BIGNUMERIC of the text CAST(x AS STRING) of a NUMERIC x of at most nine decimal digits give x back.",
  "every NUMERIC with at most nine digits after the point",
  "There are infinitely many numbers.",
  ["function_numeric.go:PARSE_NUMERIC", "function_numeric.go:PARSE_BIGNUMERIC"])
p("C314","PARSE_NUMERIC refuses what is no decimal number",
  "PARSE_NUMERIC(s) is an error unless s is a decimal number with optional sign, fraction and exponent.",
  "every text",
  "The claim is about every text and every behaviour of the libraries underneath.",
  ["function_numeric.go:PARSE_NUMERIC"])
p("C315","PARSE_NUMERIC keeps to the digits and range of NUMERIC",
  "PARSE_NUMERIC rounds to nine digits after the point and is an error for numbers of 10^29 and more.",
  "every decimal number",
  "The claim is about every text and every behaviour of the libraries underneath.",
  ["function_numeric.go:PARSE_NUMERIC"])
p("C316","JSON field access and subscript agree",
  "For a JSON value v and a name n, v.n and v['n'] are the same value, NULL or error. They are NULL when v or the name is NULL or the path finds nothing, and otherwise the JSON found first, which is JSON null and not NULL if the field is null; so is v[i] for an index.",
  "every JSON text, every name and index, every path library",
  "The claim is about every text and every behaviour of the libraries underneath.",
  ["function_json.go:JSON_FIELD", "function_json.go:JSON_SUBSCRIPT", "function_bind.go:bindJsonField"])
p("C317","UNICODE undoes CHR",
  "For every Unicode code point n, CHR(n) is the text of that one character ('' for 0) and UNICODE(CHR(n)) = n; UNICODE of any other text is its first character, of '' it is 0, and both functions of NULL are NULL.",
  "every code point and every well-formed text",
  "There are over a million code points and unboundedly many texts.",
  ["internal/function_string.go:CHR", "internal/function_string.go:UNICODE", "internal/function_bind.go:bindChr", "internal/function_bind.go:bindUnicode"])
p("C318","CHR refuses numbers that are no code points",
  "CHR(n) is an error for a negative n, a surrogate or an n above 1114111.",
  "every INT64",
  "The numbers outside are 2^64 but a million.",
  ["internal/function_string.go:CHR", "internal/function_bind.go:bindChr"])
p("C319","ASCII is about ASCII",
  "ASCII(s) is the code of the first character of s if that is below 128 and an error otherwise; 0 for '' and NULL for NULL.",
  "every well-formed text",
  "Texts are unbounded.",
  ["internal/function_string.go:ASCII", "internal/function_bind.go:bindAscii"])
p("C320","UPPER and LOWER change letters only",
  "UPPER and LOWER of a STRING or BYTES of ASCII characters change the letters a-z (A-Z) to their counterparts and leave every other character; any other STRING is mapped character by character; NULL gives NULL.",
  "every text and every table of letters",
  "Texts are unbounded.",
  ["internal/function_string.go:UPPER", "internal/function_string.go:LOWER", "internal/function_bind.go:bindUpper", "internal/function_bind.go:bindLower"])
p("C321","UPPER and LOWER of BYTES work on bytes",
  "UPPER and LOWER of BYTES change the ASCII letters and leave every byte of 128 or more as it is.",
  "every BYTES value and every table of letters",
  "Byte sequences are unbounded.",
  ["internal/function_string.go:UPPER", "internal/function_string.go:LOWER"])
p("C322","CONTAINS_SUBSTR finds texts",
  "CONTAINS_SUBSTR(v, s) is TRUE if s occurs in v regardless of case and FALSE otherwise.",
  "every value and every text searched for",
  "Values and texts are unbounded.",
  ["internal/function_string.go:CONTAINS_SUBSTR", "internal/function_bind.go:bindContainsSubstr"])
p("C323","COLLATE makes comparison ignore case",
  "COLLATE(v, 'und:ci') compares equal to COLLATE(w, 'und:ci') for texts v, w that differ in case only, the specifications binary, '' and unicode:cs are accepted, and NULL gives NULL.",
  "every pair of texts",
  "Texts are unbounded.",
  ["internal/function_string.go:COLLATE", "internal/function_bind.go:bindCollate"])
p("C324","NORMALIZE and NORMALIZE_AND_CASEFOLD",
  "NORMALIZE(s, mode) is the normal form named by the mode (NFC without one), unknown modes are errors and NULL gives NULL; NORMALIZE_AND_CASEFOLD gives the same for texts that are equal after case folding and normalization.",
  "every text, mode and library of normal forms",
  "Texts are unbounded.",
  ["internal/function_string.go:NORMALIZE", "internal/function_string.go:NORMALIZE_AND_CASEFOLD", "internal/function_bind.go:bindNormalize", "internal/function_bind.go:bindNormalizeAndCasefold"])
p("C325","ERROR never returns",
  "ERROR(message) makes the query fail whatever the message.",
  "every message, NULL included",
  "Messages are unbounded.",
  ["internal/function_bind.go:bindError"])
p("C326","A field of a constructed STRUCT is the value given",
  "STRUCT(e1 AS a1, ..., en AS an).ai is the value of ei, NULL included, also if several fields have the same name.",
  "every number of fields, every names and values, and every position",
  "Fields and values are unbounded.",
  ["internal/function.go:MAKE_STRUCT", "internal/function.go:STRUCT_FIELD", "internal/function_bind.go:bindMakeStruct", "internal/function_bind.go:bindStructField", "internal/formatter.go:MakeStructNode.FormatSQL", "internal/formatter.go:GetStructFieldNode.FormatSQL"])
p("C327","Functions of exact types are exact",
  "ABS and SAFE_NEGATE of an INT64 are exact; ABS, CEIL, FLOOR and TRUNC of a NUMERIC that is an integer are exact.",
  "every INT64 and every integer NUMERIC",
  "The values are unbounded; the first counterexample is beyond 2^53.",
  ["internal/function_math.go:ABS", "internal/function_math.go:SAFE_NEGATE", "internal/function_math.go:FLOOR", "internal/function_math.go:CEIL", "internal/function_math.go:TRUNC", "internal/value.go:NumericValue.ToFloat64"])
p("C328","FROM items that are not supported are errors",
  "A query with TABLESAMPLE, PIVOT or UNPIVOT in FROM either gives the rows it stands for or is an error; TABLESAMPLE gives some of the rows of the table.",
  "every table, percentage and select list",
  "Tables and select lists are unbounded.",
  ["internal/formatter.go:SampleScanNode.FormatSQL", "internal/formatter.go:PivotScanNode.FormatSQL", "internal/formatter.go:UnpivotScanNode.FormatSQL", "internal/analyzer.go:newAnalyzerOptions"])
p("C329","HAVING MAX and HAVING MIN choose the rows of an aggregate",
  "SUM(x HAVING MAX k) is the sum of x over the rows with the greatest k, and HAVING MIN likewise.",
  "every group of rows",
  "Groups are unbounded.",
  ["internal/formatter.go:AggregateFunctionCallNode.FormatSQL"])
p("C330","NULLS FIRST and NULLS LAST order the rows of an aggregate",
  "ARRAY_AGG(x ORDER BY k NULLS FIRST) puts the rows whose k is NULL first and NULLS LAST puts them last, with ASC and with DESC.",
  "every pair of rows, direction, NULLS clause and order of arrival",
  "Keys and values are unbounded.",
  ["internal/formatter.go:AggregateFunctionCallNode.FormatSQL", "internal/function_aggregate.go:sortAggregatedValues"])
p("C331","NULLS FIRST and NULLS LAST order the rows of a window",
  "ROW_NUMBER() OVER (ORDER BY k ...) numbers the rows whose k is NULL first or last as NULLS FIRST or NULLS LAST says; without the clause first with ASC and last with DESC. The other rows come in the direction written.",
  "every pair of rows, direction, NULLS clause and order of arrival",
  "Keys are unbounded.",
  ["internal/formatter.go:AnalyticScanNode.FormatSQL", "internal/formatter.go:AnalyticFunctionCallNode.FormatSQL", "internal/function_window_option.go:WindowFuncAggregatedStatus.Done"])
p("C332","CAST with FORMAT uses the format",
  "CAST(d AS STRING FORMAT 'YYYY') is the year of the date, CAST(b AS STRING FORMAT 'UTF-8') the text the bytes are and with 'BASE64' their base64 text.",
  "every date of the years 0 to 9999 and every BYTES value",
  "Dates and bytes are unbounded.",
  ["internal/formatter.go:CastNode.FormatSQL"])
p("C333","CAST to a type with parameters keeps to them",
  "CAST(s AS STRING(n)) and CAST(b AS BYTES(n)) never give more than n characters or bytes; CAST(q AS NUMERIC(p, n)) has at most n decimals.",
  "every value and every parameter",
  "Values and parameters are unbounded.",
  ["internal/formatter.go:CastNode.FormatSQL", "internal/spec.go:newType"])
p("C334","ORDER BY with COLLATE ignores case",
  "With ORDER BY x COLLATE 'und:ci' texts that differ in case only are equal and the others are in the order of their letters.",
  "every pair of texts and every collation name",
  "Texts are unbounded.",
  ["internal/formatter.go:OrderByScanNode.FormatSQL"])
p("C335","DISTINCT, IGNORE NULLS and LIMIT of an aggregate take effect",
  "ARRAY_AGG([DISTINCT] x [IGNORE NULLS] [LIMIT n]) over INT64 values returns the values in the order of the rows, without the NULLs if IGNORE NULLS is written, each value once and at its first place if DISTINCT is written, and of these the first n; if a NULL is left it is an error. COUNT([DISTINCT] x) is the number of the values (of the different values) that are not NULL.",
  "every column of INT64 values and NULLs, every combination of the clauses and every limit that is not negative",
  "Columns are unbounded and the clauses combine; tests try a few rows each.",
  ["internal/formatter.go:AggregateFunctionCallNode.FormatSQL", "internal/function_aggregate_option.go", "internal/function_aggregate.go:ARRAY_AGG"])
p("C336","Statistics over a frame are those of the frame's rows",
  "STDDEV_POP, STDDEV_SAMP, VAR_POP, VAR_SAMP over a ROWS frame, in a partition of two or more rows, compute the statistic of exactly the values of the rows of the frame, in the order of the window, and are NULL for an empty frame, if no value of the frame is NULL. So do CORR, COVAR_POP and COVAR_SAMP if no argument in the table is NULL.",
  "every table, partitioning, order, ROWS frame and row, with any functions for the statistics themselves",
  "Tables, frames and orders are unbounded; tests try one small table for each function.",
  ["internal/function_window.go:WINDOW_STDDEV_SAMP", "internal/function_window.go:WINDOW_VAR_POP", "internal/function_window_option.go:WindowFuncAggregatedStatus.Done", "internal/function_window.go:WINDOW_CORR"])
p("C337","Statistics over a frame ignore NULL",
  "STDDEV and VAR over a frame compute the statistic of the values of the frame that are not NULL.",
  "every table, partitioning, order, ROWS frame and row",
  "Tables, frames and orders are unbounded; tests try one small table for each function.",
  ["internal/function_window.go:WINDOW_STDDEV_SAMP", "internal/function_window.go:WINDOW_VAR_POP", "internal/function_window_option.go:WindowFuncAggregatedStatus.Done"])
p("C338","Statistics of one value over a frame",
  "If a frame has one row with a value, STDDEV_SAMP and VAR_SAMP over it are NULL and STDDEV_POP and VAR_POP are 0, whatever the partition's size.",
  "every table, partitioning, order, ROWS frame and row",
  "Tables, frames and orders are unbounded; tests try one small table for each function.",
  ["internal/function_window.go:WINDOW_STDDEV_SAMP", "internal/function_window.go:WINDOW_VAR_POP", "internal/function_window_option.go:WindowFuncAggregatedStatus.Done"])
p("C339","CORR and COVAR over a frame leave out rows with a NULL",
  "CORR, COVAR_POP and COVAR_SAMP over a frame compute the statistic of the pairs of the frame both of whose values are not NULL, and NULL if there are none.",
  "every table, partitioning, order, frame and row",
  "Tables, frames and orders are unbounded; tests try one small table for each function.",
  ["internal/function_window.go:WINDOW_CORR", "internal/function_window.go:WINDOW_COVAR_POP", "internal/function_window_option.go:WindowFuncAggregatedStatus.Done"])
p("C340","DISTINCT in statistics over a frame",
  "STDDEV_SAMP(DISTINCT x) OVER (...) computes the statistic of the different values of the frame.",
  "every table, partitioning, order, ROWS frame and row",
  "Tables, frames and orders are unbounded; tests try one small table for each function.",
  ["internal/function_window.go:WINDOW_STDDEV_SAMP", "internal/function_window.go:WINDOW_VAR_POP", "internal/function_window_option.go:WindowFuncAggregatedStatus.Done"])
p("C341","COVAR_POP over a frame is the population covariance",
  "COVAR_SAMP over a frame of n pairs is the codeviation divided by n - 1 and COVAR_POP that divided by n.",
  "every table of pairs of integers, partitioning, order and ROWS frame of two or more rows",
  "Tables, frames and orders are unbounded; tests try one small table for each function.",
  ["internal/function_window.go:WINDOW_CORR", "internal/function_window.go:WINDOW_COVAR_POP", "internal/function_window_option.go:WindowFuncAggregatedStatus.Done"])
p("C342","Definitions with ANY TYPE arguments",
  "CREATE FUNCTION with ANY TYPE arguments and no RETURNS is accepted if its body is well typed for some types of the arguments.",
  "every list of arguments, body and analyser",
  "Types nest without bound and bodies are arbitrary; tests define a handful of functions.",
  ["internal/analyzer.go:inferTemplatedTypeByRealType", "internal/spec.go:newTemplatedFunctionSpec"])
p("C343","The type of a call with ANY TYPE arguments",
  "The type a query reports for a call of a function with ANY TYPE arguments is the type the body has for the types of the call's arguments.",
  "every function, body, analyser and argument type",
  "Types nest without bound and bodies are arbitrary; tests define a handful of functions.",
  ["internal/spec.go:newTemplatedFunctionSpec", "internal/spec.go:CallSQL", "internal/catalog.go:addFunctionSpecRecursive"])
p("C344","ANY TYPE arguments are independent",
  "A call whose ANY TYPE arguments have different types is accepted if the body is well typed for them.",
  "every function, body, analyser and list of argument types",
  "Types nest without bound and bodies are arbitrary; tests define a handful of functions.",
  ["internal/spec.go:newTypeFromFunctionArgumentTypeByRealType", "internal/catalog.go:addFunctionSpecRecursive"])
p("C345","RETURNS of a function with ANY TYPE arguments",
  "A call of a function with ANY TYPE arguments and RETURNS t gives a value of type t, coercing the body, or is refused.",
  "every function, body, analyser and list of argument types",
  "Types nest without bound and bodies are arbitrary; tests define a handful of functions.",
  ["internal/spec.go:CallSQL", "internal/spec.go:newFunctionSpec"])
p("C346","Structs as ANY TYPE arguments",
  "A function with ANY TYPE arguments can be called with every struct, whether or not its fields have names.",
  "every function, analyser and argument type, nested to any depth",
  "Types nest without bound and bodies are arbitrary; tests define a handful of functions.",
  ["internal/spec.go:FormatType", "internal/spec.go:CallSQL"])
p("C347","ARRAY_CONCAT_AGG joins the arrays of the group",
  "ARRAY_CONCAT_AGG(a ORDER BY keys LIMIT n) returns the elements of the arrays that are not NULL, array after array: in the order of the rows without ORDER BY, in an order that respects the keys with it, and of the first n such arrays with LIMIT; NULL arrays are skipped and count neither as values nor towards LIMIT.",
  "all groups of arrays and NULLs of any number, all element lists, all ORDER BY keys of the supported types, all limits",
  "the arrays of a group and the orders of its rows are unbounded",
  ["internal/function_aggregate.go:ARRAY_CONCAT_AGG", "internal/function_bind.go:bindArrayConcatAgg"])
p("C348","Arrays of nothing are NULL",
  "ARRAY_AGG of no rows, ARRAY_CONCAT_AGG of no rows or of NULL arrays only, and ARRAY_AGG over an empty frame are NULL.",
  "all such groups, all tables and frames without rows",
  "every empty frame position of every table",
  ["internal/function_aggregate.go:ARRAY_AGG", "internal/function_aggregate.go:ARRAY_CONCAT_AGG", "internal/function_window.go:WINDOW_ARRAY_AGG"])
p("C349","ANY_VALUE over a frame returns a value of the frame that is not NULL if there is one",
  "ANY_VALUE(x) OVER (... ROWS ...) returns the value of some row of the frame, and NULL only if the frame has no other value.",
  "all tables, partitions, orders, ROWS frames and rows",
  "all tables and frames",
  ["internal/function_window.go:WINDOW_ANY_VALUE"])
p("C350","ARRAY_AGG with IGNORE NULLS over a frame leaves NULLs out",
  "ARRAY_AGG(x IGNORE NULLS) OVER (... ROWS ...) returns the values of the frame that are not NULL, in order, whatever rows of the table have NULL.",
  "all tables, partitions, orders, ROWS frames and rows",
  "all tables and frames, wherever the NULL is",
  ["internal/function_window.go:WINDOW_ARRAY_AGG", "internal/function_bind.go:bindWindowArrayAgg"])
p("C351","A view shows the rows its query means over the current tables",
  "After views are created one after another (each over tables and earlier views), and whatever the tables hold when a query is run, a query over tables and views gives the rows it means when each view stands for the rows, under the column names of the view, that its query means over the tables as they are then; names of views are compared without regard to case.",
  "all lists of views of any length and nesting whose queries are those of C137, all contents of the tables, all queries of C137 over tables and views",
  "Tests create one or two views over fixed tables; the claim ranges over every chain of views and every later content of the tables.",
  ["internal/spec.go:newTableAsViewSpec", "internal/spec.go:viewSQLiteSchema", "internal/stmt_action.go:CreateViewStmtAction.exec"])
p("C352","CREATE OR REPLACE VIEW changes the view and the views made from it, and nothing else",
  "After CREATE OR REPLACE VIEW of an existing view, queries give the rows they mean when the view stands for its new query: views created before from the replaced view show the new definition, the others what they showed.",
  "all lists of views, every position of the replaced view, all new definitions over tables and earlier views, all contents of the tables, all queries",
  "Tests replace a view once and read it; the claim ranges over every chain of dependent views.",
  ["internal/stmt_action.go:CreateViewStmtAction.exec", "internal/spec.go:viewSQLiteSchema"])
p("C353","DROP VIEW removes the view and leaves the others",
  "After DROP VIEW of a view that no other view needs, in any case of letters, the view is gone and every query over the tables and the remaining views gives the rows it means.",
  "all lists of views, every position of the dropped view, all contents of the tables, all queries",
  "Tests drop one view; the claim ranges over every list of views.",
  ["internal/stmt_action.go:DropStmtAction.exec", "internal/formatter.go:DropStmtNode.FormatSQL"])
p("C354","CREATE VIEW of a taken name changes no view",
  "CREATE VIEW of the name of an existing view fails, CREATE VIEW IF NOT EXISTS succeeds, and both leave every view as it is; of a free name every form of the statement adds the view.",
  "all stored views, all views, all modes",
  "Tests try one name; the claim ranges over every state and view.",
  ["internal/spec.go:viewSQLiteSchema", "internal/stmt_action.go:CreateViewStmtAction.exec"])
p("C355","ARRAY and STRUCT expressions give the values they are made of",
  "An expression built from values with ARRAY, STRUCT, field access and [OFFSET], [ORDINAL] and their SAFE_ forms, nested to any depth, gives the value it means; read as INT64, FLOAT64 or STRING it is that value, and NULL is NULL.",
  "every expression of any depth over values that C26 covers inside arrays (INT64 below 2^53 in magnitude), every index",
  "Every function call passes its result through SQLite as JSON; tests use a few shallow expressions.",
  ["internal/function.go:MAKE_ARRAY", "internal/function.go:MAKE_STRUCT", "internal/function.go:STRUCT_FIELD", "internal/function_bind.go:convertArgs"])
p("C356","Array elements and struct fields keep large INT64 values",
  "[z][OFFSET(0)] and STRUCT(z AS a).a are z for every INT64 z.",
  "every INT64 value",
  "Tests use small numbers.",
  ["internal/function.go:ARRAY_OFFSET", "internal/function.go:STRUCT_FIELD", "internal/decoder.go:DecodeValue"])
p("C357","TO_JSON and TO_JSON_STRING write BOOL as true and false",
  "TO_JSON(b) and TO_JSON_STRING(b) of a BOOL expression b are true or false, and so are BOOL elements and fields of the arrays and structs an expression builds.",
  "every BOOL expression of C355, every text of numbers",
  "Tests have no BOOL in TO_JSON; the claim ranges over every expression.",
  ["internal/function_bind.go:bindToJson", "internal/function_bind.go:bindToJsonString", "internal/function_bind.go:convertArgs"])
p("C358","FORMAT writes BOOL as true and false",
  "FORMAT('%t', b) and FORMAT('%T', b) of a BOOL b are true or false.",
  "both values, every behaviour of the other conversions",
  "Tests have no BOOL in FORMAT.",
  ["internal/function_format.go:FORMAT", "internal/value.go:IntValue.Format"])
p("C359","TO_JSON_STRING writes the elements of an array as it writes them alone",
  "TO_JSON_STRING of an ARRAY<INT64> expression is the texts of its elements, as TO_JSON_STRING gives them, in brackets.",
  "every list of INT64 values, every text of numbers",
  "Tests use small numbers.",
  ["internal/function_json.go:TO_JSON_STRING", "internal/decoder.go:DecodeValue"])
p("C360","Values stay the same through copies of tables",
  "After any history of CREATE TABLE, CREATE TABLE AS SELECT (columns and expressions of a table, with a condition), INSERT (of values or from a query), UPDATE, DELETE and DROP TABLE, a query of a table shows exactly the rows the statements wrote: no conversion of SQLite for the declared type of a column, whether given by the definition or taken over from a query any number of times, changes a value or a condition. A statement fails exactly when a table is missing, a name is taken, or an expression of it fails.",
  "all histories of statements over any tables, with columns of any type but ENUM and values of their types, all expressions and conditions",
  "the declared types and so the conversions depend on the chain of copies a column has gone through",
  ["internal/spec.go:SQLiteSchema", "internal/spec.go:newTableAsSelectSpec", "internal/rows.go:assignValue", "internal/encoder.go:CastValue"])
p("C361","CREATE OR REPLACE TABLE AS SELECT may read the table it replaces",
  "CREATE OR REPLACE TABLE t AS SELECT makes t from the rows of its query over the tables as they were, also when the query reads t itself; when it fails, t is as before.",
  "all databases, tables, queries of one table",
  "the order of the drop and the query matters for the table named twice",
  ["internal/stmt_action.go:CreateTableStmtAction", "internal/spec.go:newTableAsSelectSpec"])
p("C362","UnmarshalDatabaseTypeName inverts DatabaseTypeName",
  "UnmarshalDatabaseTypeName of the DatabaseTypeName of a column gives the type of the column with the names, kinds and order of all elements and fields at every depth; so different types have different names.",
  "all types: any nesting of arrays and structs, any field names that are valid UTF-8",
  "types nest to any depth and names hold any character",
  ["column.go:UnmarshalDatabaseTypeName", "internal/rows.go:ColumnTypeDatabaseTypeName", "internal/spec.go:newType"])
p("C363","The catalog table gives back every definition",
  "After any history of saved and dropped definitions of tables, views and functions whose names do not begin like a number and are each used for one kind of object, reading the catalog table gives exactly the last definition of every object that was not dropped, with all columns, types, keys, arguments, code and bodies as they were.",
  "all histories; all definitions whose texts are valid UTF-8",
  "definitions hold texts with any characters and types of any depth; histories are unbounded",
  ["internal/catalog.go:saveTableSpec", "internal/catalog.go:saveFunctionSpec", "internal/catalog.go:loadTableSpec", "internal/catalog.go:loadFunctionSpec", "internal/catalog.go:createCatalogTableQuery"])
p("C364","Tables of different names are different rows of the catalog table",
  "Saving a table leaves the saved definitions of tables with other names as they are, whatever the names.",
  "all pairs of names",
  "names are unbounded",
  ["internal/catalog.go:createCatalogTableQuery", "internal/catalog.go:upsertCatalogQuery"])
p("C365","ARRAY(subquery) has an element for each row",
  "ARRAY(SELECT ...) is the array of the values of the subquery's column, one for each row and in the order of the rows, NULL where the value is NULL, and the empty array when there is no row. The subquery is one of C137 and may read columns of the queries around it, to any depth. No value's text is the JSON of an aggregate option (C366).",
  "all subqueries of C137, rows around them, databases, names, functions and values",
  "The subqueries, the number of rows and the depth of nesting are unbounded.",
  ["internal/formatter.go:SubqueryExprNode.FormatSQL", "internal/function_aggregate.go:ARRAY", "internal/function_bind.go:bindArray"])
p("C366","ARRAY(subquery) keeps every value whatever its text",
  "The array of C365 has all the values also when the text of one is the JSON of an aggregate option.",
  "all lists of values",
  "It takes a particular text among any number of values.",
  ["internal/function_aggregate_option.go:parseAggregateOptions", "internal/function_bind.go:Step", "internal/function_aggregate.go:ARRAY"])
p("C367","Each window function has its own OVER",
  "In a query with any number of window functions with different OVER clauses, in queries nested to any depth in FROM, each function is computed with the PARTITION BY and the ORDER BY of its own OVER, and with none where it has none. No argument of a window function has a subquery with window functions (C368).",
  "all numbers of functions, OVER clauses and nestings",
  "The clauses are handed on through state shared by the whole statement; the number and nesting of functions is unbounded.",
  ["internal/formatter.go:AnalyticScanNode.FormatSQL", "internal/formatter.go:AnalyticFunctionCallNode.FormatSQL", "internal/context.go:withAnalyticOrderColumnNames"])
p("C368","A window function in an argument of another leaves the OVER of both",
  "The same when an argument of a window function is a subquery with window functions.",
  "all trees of window functions",
  "It takes a nesting of scans in arguments and a further function with the same OVER.",
  ["internal/formatter.go:AnalyticScanNode.FormatSQL", "internal/formatter.go:AnalyticFunctionCallNode.FormatSQL", "internal/context.go:withAnalyticPartitionColumnNames"])
p("C369","Argument types of calls with ANY TYPE arguments",
  "A call of a function with ANY TYPE arguments is analysed with the types its arguments have, whatever the names of their STRUCT fields.",
  "every type, nested to any depth, with every field name, every function and analyser",
  "Types nest without bound and field names are arbitrary texts; tests pass a few scalars.",
  ["internal/spec.go:FormatType", "internal/spec.go:CallSQL", "internal/spec.go:newTemplatedFunctionSpec"])
with open("/verif/properties.jsonl", "w") as f:
    for r in P:
        f.write(json.dumps(r, ensure_ascii=False) + "\n")
assert len({r["id"] for r in P}) == len(P)
print(len(P))
