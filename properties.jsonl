{"id": "C01", "title": "Resolving a name is idempotent and extends the reference", "statement": "The path a table or function reference resolves to under a connection's name path ends with the written reference, is prefixed only by a leading part of the name path, and resolving the resolved path again gives the same path; so the fully qualified spelling of an object and the spelling that was resolved to it always denote the same object.", "quantifier": "every name path reachable through SetNamePath/AddNamePath/SetMaxNamePath, every reference of any number of components, any strings (dots and INFORMATION_SCHEMA included)", "why_tests_cant": "the space of name paths, maxima and references is infinite and the special cases (dots inside a component, INFORMATION_SCHEMA, equal components) interact", "anchors": ["internal/name_path.go:NamePath.mergePath", "internal/name_path.go:NamePath.normalizePath", "internal/name_path.go:NamePath.getMaxNum", "driver.go:SetNamePath"]}
{"id": "C02", "title": "A maximum name path bounds every resolved name", "statement": "With SetMaxNamePath(n), a reference of at most n components (n+1 below INFORMATION_SCHEMA) never resolves to more than that many components, and a reference of exactly n components is used as written, ignoring the name path.", "quantifier": "all n > 0, all name paths, all references", "why_tests_cant": "unbounded numbers and lengths; only a few lengths can be tried", "anchors": ["internal/name_path.go:NamePath.mergePath", "internal/name_path.go:NamePath.getMaxNum", "driver.go:SetMaxNamePath"]}
{"id": "C03", "title": "Name path setters are all-or-nothing and keep the bound", "statement": "SetNamePath and AddNamePath either install the (dot-split) path and report success, or report an error and leave the name path unchanged; in every history where the maximum is set before the paths and INFORMATION_SCHEMA is not used, the name path never exceeds the maximum and never holds a component with a dot.", "quantifier": "every finite sequence of SetMaxNamePath/SetNamePath/AddNamePath calls with any arguments", "why_tests_cant": "histories are unbounded", "anchors": ["internal/name_path.go:NamePath.setPath", "internal/name_path.go:NamePath.addPath", "internal/name_path.go:NamePath.setMaxNum"]}
{"id": "C04", "title": "Unqualified names mean the object in the current name path", "statement": "With name path [project, dataset] and maximum 3, an unqualified table name t resolves to project.dataset.t.", "quantifier": "all project, dataset and table names", "why_tests_cant": "a collision between a table name and a path component is needed to see the failure", "anchors": ["internal/name_path.go:NamePath.mergePath"]}
{"id": "C05", "title": "Distinct fully qualified names are distinct objects", "statement": "Two tables (or functions) with different fully qualified names never share storage: the name used for the SQLite object, the catalog map and the persisted catalog row is different.", "quantifier": "all pairs of different non-empty paths", "why_tests_cant": "needs all pairs of names", "anchors": ["internal/name_path.go:formatPath", "internal/spec.go:TableSpec.TableName", "internal/spec.go:FunctionSpec.FuncName", "internal/catalog.go:addTableSpec"]}
{"id": "C06", "title": "The catalog is a map from names to definitions", "statement": "After any history of CREATE and DROP of tables and functions, looking up a name finds the definition given by the last CREATE of that name since its last DROP, and nothing if there is none; DROP of one object leaves every other table and function, and their order of creation, unchanged; a DROP that fails changes nothing.", "quantifier": "every finite history of CREATE/CREATE OR REPLACE/DROP over any names and definitions", "why_tests_cant": "histories and catalog sizes are unbounded", "anchors": ["internal/catalog.go:addTableSpec", "internal/catalog.go:deleteTableSpecByName", "internal/catalog.go:resetCatalog", "internal/catalog.go:addFunctionSpec", "internal/catalog.go:deleteFunctionSpecByName"]}
{"id": "C07", "title": "CREATE OR REPLACE takes effect for later statements", "statement": "After CREATE OR REPLACE of an existing table or function, every later statement (on any connection to the same database) sees the new definition, and it stays in force after unrelated DROPs.", "quantifier": "every history containing a replacement", "why_tests_cant": "depends on the whole later history, e.g. an unrelated DROP much later", "anchors": ["internal/catalog.go:addTableSpec", "internal/catalog.go:addFunctionSpec", "internal/catalog.go:getFunctions", "internal/catalog.go:resetCatalog", "internal/analyzer.go:Analyze"]}
{"id": "C08", "title": "Fully qualified references find their own table", "statement": "When every table has been created with the same number of path components, a reference spelled with the full path resolves to exactly that table, whatever other tables exist and in whatever order they were created.", "quantifier": "every finite set and creation order of tables with equal path lengths, every reference", "why_tests_cant": "the sub-catalog tree is built recursively over all suffixes; collisions depend on the set of names and their order", "anchors": ["internal/catalog.go:addTableSpecRecursive", "internal/catalog.go:existsTable", "internal/catalog.go:FindTable"]}
{"id": "C09", "title": "Reopening a database gives back the same catalog", "statement": "After any history of successful DDL, a fresh process opening the database sees, for every name, the same kind and definition the writing process had for its non-temporary objects.", "quantifier": "every DDL history, every crash/reopen point between statements", "why_tests_cant": "the reopen point and the history are unbounded", "anchors": ["internal/catalog.go:Sync", "internal/catalog.go:saveTableSpec", "internal/catalog.go:saveFunctionSpec", "internal/catalog.go:loadTableSpec", "internal/catalog.go:DeleteTableSpec"]}
{"id": "C10", "title": "Objects created by another process become visible", "statement": "Once another process has committed a CREATE, the next statement of this process sees the object.", "quantifier": "every interleaving of two processes' syncs, stamps and commits", "why_tests_cant": "needs a particular interleaving of timestamping, committing and syncing", "anchors": ["internal/catalog.go:Sync", "internal/catalog.go:saveTableSpec"]}
{"id": "C11", "title": "DROP IF EXISTS never fails because the object is missing", "statement": "DROP TABLE IF EXISTS / DROP FUNCTION IF EXISTS of a missing object succeeds and changes nothing.", "quantifier": "every catalog state and name", "why_tests_cant": "all catalog states", "anchors": ["internal/stmt_action.go:DropStmtAction.exec", "internal/catalog.go:deleteTableSpecByName"]}
{"id": "C12", "title": "Scripts run in order and stop at the first failure", "statement": "Exec and Query of a script run its statements in order; if statement k fails, statements 1..k-1 have been executed, no statement after k is, and the call returns an error; if none fails the call returns the outcome of the last statement.", "quantifier": "all scripts of any length, all failure points", "why_tests_cant": "any length and any failure position", "anchors": ["driver.go:ZetaSQLiteConn.ExecContext", "driver.go:ZetaSQLiteConn.QueryContext", "internal/analyzer.go:Analyze"]}
{"id": "C13", "title": "Temporary objects do not outlive Exec", "statement": "When Exec returns, no temporary table, view or function created by the script is left in the database or in the catalog, whichever statement failed.", "quantifier": "all scripts, all failure points (including failures of SQLite itself)", "why_tests_cant": "every crash/failure point in scripts of any length", "anchors": ["driver.go:ZetaSQLiteConn.ExecContext", "internal/stmt_action.go:CreateTableStmtAction.Cleanup", "internal/stmt_action.go:CreateFunctionStmtAction.Cleanup"]}
{"id": "C14", "title": "Temporary objects do not outlive Query", "statement": "When Query fails, or when the rows returned by Query are closed, no temporary object created by the script is left.", "quantifier": "all scripts, all failure points", "why_tests_cant": "every failure point", "anchors": ["driver.go:ZetaSQLiteConn.QueryContext", "internal/rows.go:Rows.Close", "internal/rows.go:Rows.SetActions"]}
{"id": "C15", "title": "Exec never destroys an object it did not create", "statement": "A script that only creates objects never removes a table that existed before it, even when it fails.", "quantifier": "all prior states, all scripts, all failure points", "why_tests_cant": "needs a name clash between a temporary and an existing object plus the cleanup path", "anchors": ["driver.go:ZetaSQLiteConn.ExecContext", "internal/stmt_action.go:CreateTableStmtAction.Cleanup"]}
{"id": "C16", "title": "The reported catalog change is the net change of the script", "statement": "The tables and functions reported by ChangedCatalog as added/deleted after a script are disjoint by name, and name for name say what the last CREATE/DROP of that name in the script did.", "quantifier": "all sequences of CREATE and DROP within a script", "why_tests_cant": "sequences are unbounded", "anchors": ["internal/conn.go:Conn.addTable", "internal/conn.go:Conn.deleteTable", "internal/conn.go:Conn.addFunction", "internal/conn.go:Conn.deleteFunction", "context.go"]}
{"id": "C17", "title": "Statements run inside the open transaction and only there", "statement": "Between BeginTx and Commit/Rollback every statement of the connection runs in that transaction; before and after it runs outside of any transaction; Commit and Rollback always close the transaction for the connection, even if they fail.", "quantifier": "every history of begin/commit/rollback/statement calls on a connection", "why_tests_cant": "histories are unbounded and include failing Commit/Rollback", "anchors": ["driver.go:ZetaSQLiteConn.BeginTx", "driver.go:ZetaSQLiteTx.Commit", "driver.go:ZetaSQLiteTx.Rollback", "internal/conn.go:Conn.ExecContext"]}
{"id": "C18", "title": "Rollback restores the catalog", "statement": "After Rollback the names visible to later statements are those visible before the transaction began.", "quantifier": "every transaction body", "why_tests_cant": "any DDL sequence inside the transaction", "anchors": ["driver.go:ZetaSQLiteTx.Rollback", "internal/catalog.go:AddNewTableSpec"]}
{"id": "C19", "title": "Preparing a statement changes nothing", "statement": "Prepare has no effect on tables or catalog until the prepared statement is executed.", "quantifier": "all statements and states", "why_tests_cant": "all statements", "anchors": ["driver.go:ZetaSQLiteConn.PrepareContext", "internal/stmt_action.go:CreateTableStmtAction.Prepare"]}
{"id": "C20", "title": "One database per data source name", "statement": "However many goroutines open connections, all connections opened with the same data source name share one database and one catalog, and connections with different names never share one.", "quantifier": "every interleaving of Open calls with any names", "why_tests_cant": "every schedule", "anchors": ["driver.go:newDBAndCatalog"]}
{"id": "C21", "title": "Named parameters bind by name", "statement": "In a statement with named parameters each parameter receives the argument passed under that name, compared case-insensitively, regardless of argument order or of extra arguments; repeated uses of a name receive the same value.", "quantifier": "all parameter lists and argument lists", "why_tests_cant": "all permutations and lengths", "anchors": ["internal/analyzer.go:getParamsFromNode", "internal/analyzer.go:getArgsFromParams", "internal/encoder.go:encodeNamedValue"]}
{"id": "C22", "title": "Positional parameters bind left to right across a script", "statement": "In a script with positional parameters the i-th question mark of the whole script receives the i-th argument.", "quantifier": "all scripts and argument lists", "why_tests_cant": "scripts of any length", "anchors": ["internal/analyzer.go:Analyze", "internal/stmt_action.go:DMLStmtAction.Args", "internal/stmt_action.go:QueryStmtAction.Args"]}
{"id": "C23", "title": "Calling a SQL function substitutes its arguments", "statement": "A call of a SQL user-defined function evaluates the body with each parameter reference replaced by the corresponding argument expression, simultaneously and nothing else.", "quantifier": "all bodies, parameter names and argument texts", "why_tests_cant": "all strings; failures need one name to be a prefix of another or an argument text that contains a reference", "anchors": ["internal/spec.go:FunctionSpec.CallSQL"]}
{"id": "C24", "title": "MERGE implements the SQL standard cases", "statement": "MERGE ... ON target.k = source.k applies each WHEN clause to exactly the rows its match type names: MATCHED to target rows with a source row of equal key, NOT MATCHED BY TARGET to source rows without target row, NOT MATCHED BY SOURCE to target rows without source row.", "quantifier": "all target and source tables, all clause lists", "why_tests_cant": "all table contents", "anchors": ["internal/analyzer.go:newMergeStmtAction", "internal/stmt_action.go:MergeStmtAction.exec"]}
{"id": "C25", "title": "A failed MERGE does not disable later MERGEs", "statement": "If one statement of a MERGE fails, a later MERGE on the same connection behaves as if the failed one had not been issued.", "quantifier": "all failure points inside MERGE", "why_tests_cant": "every failure point", "anchors": ["internal/analyzer.go:newMergeStmtAction", "internal/stmt_action.go:MergeStmtAction.exec"]}
{"id": "C26", "title": "Stored values come back unchanged", "statement": "A value of any type (including NULL, nested arrays and structs) written to a table or passed through the SQL engine is read back as the same value.", "quantifier": "all values of all types and nestings", "why_tests_cant": "infinite, nested value space", "anchors": ["internal/encoder.go:EncodeValue", "internal/encoder.go:valueLayoutFromValue", "internal/decoder.go:DecodeValue", "internal/decoder.go:decodeFromValueLayout"]}
{"id": "C27", "title": "Literals cannot break out of the generated SQL", "statement": "The text generated for any string, bytes, array or struct literal is one quoted SQL token whose content has no quote character, whatever the literal contains.", "quantifier": "all values", "why_tests_cant": "all strings", "anchors": ["internal/encoder.go:LiteralFromValue"]}
{"id": "C28", "title": "DATETIME and TIME literals keep their fields", "statement": "Decoding a packed DATETIME (TIME) literal yields exactly the year, month, day, hour, minute, second and microsecond that were packed.", "quantifier": "all valid field combinations", "why_tests_cant": "2^59 combinations", "anchors": ["internal/encoder.go:datetimeValueFromLiteral", "internal/encoder.go:timeValueFromLiteral"]}
{"id": "C29", "title": "DATE literals do not depend on the machine's time zone", "statement": "The date literal for day number n denotes the civil date n days after 1970-01-01 whatever the local time zone of the process.", "quantifier": "all day numbers and all zone offsets", "why_tests_cant": "all days and zones", "anchors": ["internal/encoder.go:dateValueFromLiteral", "internal/value.go:DateValue.ToString"]}
{"id": "C30", "title": "TIMESTAMP column text converts back to the same instant", "statement": "TimeFromTimestampValue applied to the text a TIMESTAMP column is scanned as yields the stored instant to the microsecond, and the text is the decimal number of seconds since the epoch.", "quantifier": "all instants in range", "why_tests_cant": "all 2^58 microsecond instants", "anchors": ["timestamp.go:TimeFromTimestampValue", "internal/rows.go:assignInterfaceValue"]}
{"id": "C31", "title": "INT64 arithmetic is exact or fails", "statement": "+, -, * and DIV on INT64 return the mathematical result when it fits in 64 bits and an error otherwise, never a wrong number; division truncates toward zero and division by zero is an error.", "quantifier": "all pairs of 64-bit integers", "why_tests_cant": "2^128 pairs", "anchors": ["internal/value.go:IntValue.Add", "internal/value.go:IntValue.Sub", "internal/value.go:IntValue.Mul", "internal/value.go:IntValue.Div", "internal/function_math.go:DIV"]}
{"id": "C32", "title": "Comparisons of scalars form one consistent total order", "statement": "On values of one scalar type, exactly one of a<b, a=b, a>b holds, <= and >= agree with them, and the order is transitive; ORDER BY sorts by this order.", "quantifier": "all triples of values", "why_tests_cant": "all triples", "anchors": ["internal/value.go:EQ/GT/GTE/LT/LTE", "internal/function_register.go:zetasqlite_collate"]}
{"id": "C33", "title": "Equality of arrays and structs is element-wise", "statement": "Two arrays, or two structs, are equal iff they have the same length and equal elements at each position, at every depth of nesting; <> is the negation of =; a NULL inside makes the answer NULL, never a crash.", "quantifier": "all arrays and structs of any nesting", "why_tests_cant": "the nesting depth, the lengths and the places of NULLs are unbounded", "anchors": ["internal/value.go:ArrayValue.EQ", "internal/value.go:StructValue.EQ", "internal/function.go:MAKE_STRUCT", "internal/function.go:NOT_EQ"]}
{"id": "C34", "title": "NUMERIC arithmetic does not modify its operands", "statement": "Evaluating a NUMERIC expression never changes the value of a column, variable or other expression that shares an operand.", "quantifier": "all operands and expression sequences", "why_tests_cant": "aliasing depends on evaluation history", "anchors": ["internal/value.go:NumericValue.Add", "internal/function_aggregate.go:SUM", "internal/value.go:NumericValue.Sub"]}
{"id": "C35", "title": "Casting NUMERIC to INT64 and INT64 to BOOL uses the numeric value", "statement": "CAST of a NUMERIC value to INT64 rounds its numeric value half away from zero; CAST of an INT64 value to BOOL tests whether it is non-zero.", "quantifier": "all rationals", "why_tests_cant": "all rationals", "anchors": ["internal/value.go:NumericValue.ToInt64", "internal/value.go:NumericValue.ToBool"]}
{"id": "C36", "title": "AND, OR and NOT follow three-valued logic", "statement": "AND, OR, NOT over any number of TRUE/FALSE/NULL operands give the SQL three-valued result.", "quantifier": "all operand lists", "why_tests_cant": "any number of operands", "anchors": ["internal/function.go:AND", "internal/function.go:OR", "internal/function.go:NOT", "internal/function_bind.go:bindAnd"]}
{"id": "C37", "title": "IN follows three-valued logic", "statement": "x IN (list) is TRUE if some element equals x, else NULL if x or some element is NULL, else FALSE.", "quantifier": "all operands and lists", "why_tests_cant": "lists of any length", "anchors": ["internal/function.go:IN", "internal/function_bind.go:bindIn", "internal/function.go:ARRAY_IN"]}
{"id": "C38", "title": "Comparison and arithmetic operators propagate NULL", "statement": "Every comparison, arithmetic, BETWEEN and LIKE operator returns NULL when an operand is NULL; IS [NOT] TRUE/FALSE/NULL and IS [NOT] DISTINCT FROM never return NULL.", "quantifier": "all operands of all types", "why_tests_cant": "all values", "anchors": ["internal/function_bind.go:bindAdd", "internal/function_bind.go:bindBetween", "internal/function_bind.go:bindLike", "internal/function_bind.go:bindIsTrue", "internal/function.go:IS_DISTINCT_FROM"]}
{"id": "C39", "title": "COALESCE, IFNULL, NULLIF, IF and CASE select the documented branch", "statement": "COALESCE returns its first non-NULL argument, IFNULL/NULLIF/IF/CASE the branch their definition says.", "quantifier": "all argument lists", "why_tests_cant": "any number of arguments", "anchors": ["internal/function.go:COALESCE", "internal/function.go:IF", "internal/function.go:IFNULL", "internal/function.go:NULLIF", "internal/formatter.go:FunctionCallNode.FormatSQL"]}
{"id": "C40", "title": "SAFE. functions have one meaning", "statement": "The same SAFE.f(x) or f(x) call means the same function every time the program is started.", "quantifier": "all functions, all start-ups (map iteration orders)", "why_tests_cant": "depends on the iteration order of a Go map", "anchors": ["internal/function_register.go:setupNormalFuncMap"]}
{"id": "C41", "title": "LIKE matches the documented language", "statement": "s LIKE p is true iff s matches p where % stands for any string, _ for any single character and everything else for itself.", "quantifier": "all strings and patterns", "why_tests_cant": "all strings and patterns", "anchors": ["internal/function.go:LIKE"]}
{"id": "C42", "title": "Bit operators act bitwise on 64-bit words", "statement": "&, |, ^, ~ act on each of the 64 bits; << and >> move the bits by the given count and fill with zeros, giving 0 for counts of 64 or more, and fail for negative counts; BIT_COUNT counts the one bits of the two's complement representation, or of the bytes.", "quantifier": "all 64-bit integers, shift counts and byte strings", "why_tests_cant": "64-bit words and all shift counts cannot be enumerated", "anchors": ["internal/function.go:BIT_AND", "internal/function.go:BIT_LEFT_SHIFT", "internal/function.go:BIT_RIGHT_SHIFT", "internal/function_bit.go:BIT_COUNT"]}
{"id": "C43", "title": "GREATEST and LEAST return an extreme argument", "statement": "GREATEST (LEAST) of non-NULL values returns one of its arguments that is not less (greater) than any other; NULL if any argument is NULL.", "quantifier": "all argument lists", "why_tests_cant": "any number of arguments", "anchors": ["internal/function_math.go:GREATEST", "internal/function_math.go:LEAST"]}
{"id": "C44", "title": "RANGE_BUCKET returns the bucket of a sorted boundary array", "statement": "For a non-decreasing boundary array RANGE_BUCKET(p, a) is the number of boundaries <= p.", "quantifier": "all arrays and points", "why_tests_cant": "arrays of any length", "anchors": ["internal/function_math.go:RANGE_BUCKET"]}
{"id": "C45", "title": "GENERATE_ARRAY enumerates the arithmetic progression", "statement": "GENERATE_ARRAY(a, b, s) on INT64 returns a, a+s, a+2s, ... up to b inclusive, the empty array when b lies on the wrong side of a, an error for step 0; it always terminates.", "quantifier": "all 64-bit starts, ends and steps", "why_tests_cant": "all triples; the failures are at the extreme values", "anchors": ["internal/function_array.go:generateArray"]}
{"id": "C46", "title": "Array subscripts", "statement": "a[OFFSET(i)] returns the i-th element (0-based) for 0<=i<len and an error otherwise, SAFE_OFFSET returns NULL instead; ORDINAL is OFFSET shifted by one.", "quantifier": "all arrays and 64-bit subscripts", "why_tests_cant": "any length, any subscript incl. negative", "anchors": ["internal/function.go:ARRAY_OFFSET", "internal/function.go:ARRAY_SAFE_OFFSET", "internal/function.go:ARRAY_ORDINAL", "internal/function.go:ARRAY_SAFE_ORDINAL"]}
{"id": "C47", "title": "ARRAY_CONCAT, ARRAY_LENGTH, ARRAY_REVERSE laws", "statement": "ARRAY_REVERSE is an involution that preserves length and elements, ARRAY_CONCAT appends, ARRAY_LENGTH is additive.", "quantifier": "all arrays", "why_tests_cant": "any length", "anchors": ["internal/function_array.go:ARRAY_CONCAT", "internal/function_array.go:ARRAY_REVERSE", "internal/function_array.go:ARRAY_LENGTH"]}
{"id": "C48", "title": "IPv4 integer conversion round-trips", "statement": "NET.IPV4_TO_INT64(NET.IPV4_FROM_INT64(n)) = n for 0 <= n < 2^32 and the bytes are big-endian; other integers are errors.", "quantifier": "all 64-bit integers", "why_tests_cant": "2^64 inputs", "anchors": ["internal/function_net.go:NET_IPV4_FROM_INT64", "internal/function_net.go:NET_IPV4_TO_INT64"]}
{"id": "C49", "title": "NET.IP_TRUNC keeps exactly the network prefix", "statement": "NET.IP_TRUNC(addr, n) keeps the first n bits and zeroes the others, NET.IP_NET_MASK(w, n) is n ones followed by zeroes, and truncation is idempotent.", "quantifier": "all addresses and prefix lengths", "why_tests_cant": "2^128 addresses", "anchors": ["internal/function_net.go:NET_IP_TRUNC", "internal/function_net.go:NET_IP_NET_MASK"]}
{"id": "C50", "title": "SUBSTR takes the documented slice", "statement": "SUBSTR(s, pos, len) is the slice of characters starting at pos (1-based; 0 as 1; negative from the end) of at most len characters; negative length is an error; it never fails otherwise.", "quantifier": "all strings, positions and lengths", "why_tests_cant": "all 64-bit positions and lengths", "anchors": ["internal/function_string.go:SUBSTR", "internal/function_string.go:substrPos", "internal/function_string.go:substrLen"]}
{"id": "C51", "title": "LPAD and RPAD produce exactly the requested length", "statement": "LPAD/RPAD(s, n, pad) has exactly n characters, is a prefix of s when n <= length(s), and otherwise ends (starts) with s.", "quantifier": "all strings, lengths, pads", "why_tests_cant": "all strings", "anchors": ["internal/function_string.go:LPAD", "internal/function_string.go:RPAD"]}
{"id": "C52", "title": "TRANSLATE maps characters simultaneously", "statement": "TRANSLATE(s, from, to) replaces every character of s that occurs in from by the corresponding one in to (or deletes it), in one simultaneous pass.", "quantifier": "all strings", "why_tests_cant": "all strings; needs chains in the map", "anchors": ["internal/function_string.go:TRANSLATE"]}
{"id": "C53", "title": "Text encodings round-trip", "statement": "FROM_HEX(TO_HEX(b)) = b, FROM_BASE64(TO_BASE64(b)) = b, FROM_BASE32(TO_BASE32(b)) = b, CODE_POINTS_TO_BYTES(TO_CODE_POINTS(b)) = b, CODE_POINTS_TO_STRING(TO_CODE_POINTS(s)) = s.", "quantifier": "all byte strings", "why_tests_cant": "all byte strings", "anchors": ["internal/function_string.go:TO_HEX", "internal/function_string.go:FROM_HEX", "internal/function_string.go:TO_BASE64", "internal/function_string.go:FROM_BASE64"]}
{"id": "C54", "title": "SPLIT and ARRAY_TO_STRING are inverse", "statement": "ARRAY_TO_STRING(SPLIT(s, d), d) = s for every delimiter d, and no piece contains d.", "quantifier": "all strings and delimiters", "why_tests_cant": "all strings", "anchors": ["internal/function_string.go:SPLIT", "internal/function_array.go:ARRAY_TO_STRING"]}
{"id": "C55", "title": "STRPOS, INSTR, STARTS_WITH, ENDS_WITH find the first occurrence", "statement": "STRPOS(s, t) is the 1-based character position of the first occurrence of t in s, 0 if there is none.", "quantifier": "all strings", "why_tests_cant": "all strings (multi-byte characters)", "anchors": ["internal/function_string.go:STRPOS", "internal/function_string.go:INSTR", "internal/function_string.go:STARTS_WITH"]}
{"id": "C56", "title": "REVERSE is an involution on characters", "statement": "REVERSE(REVERSE(s)) = s and LENGTH is preserved, counted in characters for STRING and bytes for BYTES.", "quantifier": "all strings", "why_tests_cant": "all strings", "anchors": ["internal/function_string.go:REVERSE"]}
{"id": "C57", "title": "DATE_ADD and DATE_SUB in days and weeks are inverse and exact", "statement": "DATE_ADD(d, INTERVAL n DAY) is the date n days later, DATE_SUB is its inverse, WEEK is seven days.", "quantifier": "all dates and counts in range", "why_tests_cant": "all dates", "anchors": ["internal/function_date.go:DATE_ADD", "internal/function_date.go:DATE_SUB"]}
{"id": "C58", "title": "Month and year arithmetic clamps to the end of the month", "statement": "DATE_ADD(d, INTERVAL n MONTH|QUARTER|YEAR) lands in the month n (3n, 12n) months later, on the same day of month or the month's last day if it is shorter.", "quantifier": "all dates and counts", "why_tests_cant": "all dates and counts; leap years", "anchors": ["internal/function_date.go:addMonth", "internal/function_date.go:addYear", "internal/function_date.go:DATE_ADD"]}
{"id": "C59", "title": "DATE_DIFF counts boundaries", "statement": "DATE_DIFF(a, b, part) is the number of part boundaries between b and a (days, weeks starting on the given weekday, ISO weeks, months, quarters, years), antisymmetric in a and b.", "quantifier": "all pairs of dates and parts", "why_tests_cant": "all pairs", "anchors": ["internal/function_date.go:DATE_DIFF"]}
{"id": "C60", "title": "DATE_TRUNC is the start of the enclosing period", "statement": "DATE_TRUNC(d, part) is the first day of the part containing d; it is idempotent, monotone and at most d.", "quantifier": "all dates and parts", "why_tests_cant": "all dates", "anchors": ["internal/function_date.go:DATE_TRUNC"]}
{"id": "C61", "title": "LAST_DAY is the last day of the enclosing period", "statement": "LAST_DAY(d, part) is the last day of the week, ISO week, month, quarter or year containing d.", "quantifier": "all dates and parts", "why_tests_cant": "all dates", "anchors": ["internal/function_date.go:LAST_DAY"]}
{"id": "C62", "title": "UNIX_DATE and DATE_FROM_UNIX_DATE are inverse", "statement": "UNIX_DATE(DATE_FROM_UNIX_DATE(n)) = n for every day in range, before and after 1970.", "quantifier": "all days", "why_tests_cant": "all days", "anchors": ["internal/function_date.go:UNIX_DATE", "internal/function_date.go:DATE_FROM_UNIX_DATE"]}
{"id": "C63", "title": "EXTRACT agrees with the calendar", "statement": "EXTRACT(YEAR|QUARTER|MONTH|DAY|DAYOFWEEK|DAYOFYEAR FROM d) are the calendar fields of d.", "quantifier": "all dates", "why_tests_cant": "all dates", "anchors": ["internal/function.go:EXTRACT"]}
{"id": "C64", "title": "TIMESTAMP_TRUNC and DATETIME_TRUNC round down to the part", "statement": "Truncating to MICROSECOND..YEAR gives the latest instant not after the argument whose finer fields are all zero (first).", "quantifier": "all instants and parts", "why_tests_cant": "all instants", "anchors": ["internal/function_datetime.go:DATETIME_TRUNC", "internal/function_time.go:TIME_TRUNC", "internal/function_timestamp.go:TIMESTAMP_TRUNC"]}
{"id": "C65", "title": "UNIX_MICROS, MILLIS, SECONDS convert both ways", "statement": "UNIX_x(TIMESTAMP_x(n)) = n for every n in range and x in SECONDS, MILLIS, MICROS; before 1970 UNIX_SECONDS and UNIX_MILLIS round down.", "quantifier": "all instants", "why_tests_cant": "all instants, negative ones included", "anchors": ["internal/function_timestamp.go:TIMESTAMP_SECONDS", "internal/function_timestamp.go:UNIX_SECONDS", "internal/function_timestamp.go:TIMESTAMP_MILLIS"]}
{"id": "C66", "title": "JUSTIFY functions preserve the interval", "statement": "JUSTIFY_DAYS, JUSTIFY_HOURS and JUSTIFY_INTERVAL preserve the total length (30-day months, 24-hour days) and normalise days to (-30,30), hours to (-24,24) and months to (-12,12).", "quantifier": "all intervals", "why_tests_cant": "all intervals, mixed signs", "anchors": ["internal/function_interval.go:JUSTIFY_DAYS", "internal/function_interval.go:JUSTIFY_HOURS", "internal/function_interval.go:JUSTIFY_INTERVAL"]}
{"id": "C67", "title": "PARSE_DATE inverts FORMAT_DATE", "statement": "PARSE_DATE(f, FORMAT_DATE(f, d)) = d for every format f that prints year, month and day, in whatever order.", "quantifier": "all dates and such formats", "why_tests_cant": "all dates, all orders of elements", "anchors": ["internal/function_time_parser.go:parseTimeFormat", "internal/function_time_parser.go:formatTime"]}
{"id": "C68", "title": "Parsing rejects text that does not match the format", "statement": "PARSE_DATE/PARSE_TIMESTAMP fail when a literal character of the format is not present in the text or the fields do not form a valid date.", "quantifier": "all formats and texts", "why_tests_cant": "all texts", "anchors": ["internal/function_time_parser.go:parseTimeFormat", "internal/function_time_parser.go:dayParser"]}
{"id": "C69", "title": "COUNT, SUM, MIN, MAX, AVG compute their definition", "statement": "Over any multiset of rows: COUNT(*) the number of rows, COUNT(x) the non-NULL ones, SUM/MIN/MAX/AVG over the non-NULL values and NULL when there is none; the result does not depend on row order.", "quantifier": "all row sequences and permutations", "why_tests_cant": "any number of rows", "anchors": ["internal/function_aggregate.go:COUNT", "internal/function_aggregate.go:SUM", "internal/function_aggregate.go:MIN", "internal/function_aggregate.go:MAX", "internal/function_aggregate.go:AVG"]}
{"id": "C70", "title": "BIT_AND, BIT_OR, BIT_XOR aggregates fold the operator", "statement": "BIT_AND/BIT_OR/BIT_XOR over a group equal the bitwise fold of the non-NULL values.", "quantifier": "all value sequences", "why_tests_cant": "all sequences", "anchors": ["internal/function_aggregate.go:BIT_AND_AGG", "internal/function_aggregate.go:BIT_OR_AGG", "internal/function_aggregate.go:BIT_XOR_AGG"]}
{"id": "C71", "title": "DISTINCT feeds each value once, IGNORE NULLS no NULL", "statement": "An aggregate with DISTINCT sees each distinct value exactly once in order of first occurrence; with IGNORE NULLS it sees no NULL; otherwise every row.", "quantifier": "all row sequences of INT64, BOOL and STRING values (strings that are JSON objects: see C73), any aggregate function", "why_tests_cant": "any number of rows", "anchors": ["internal/function_bind.go:Aggregator.Step"]}
{"id": "C72", "title": "ORDER BY and LIMIT inside aggregates", "statement": "ARRAY_AGG/STRING_AGG with ORDER BY and LIMIT n return the first n values in the requested order; the multiset is preserved without LIMIT.", "quantifier": "all row sequences, keys and limits", "why_tests_cant": "any number of rows", "anchors": ["internal/function_aggregate.go:sortAggregatedValues", "internal/function_aggregate.go:ARRAY_AGG", "internal/function_aggregate.go:STRING_AGG"]}
{"id": "C73", "title": "User data is never mistaken for an aggregate option", "statement": "An aggregate over strings sees every value, whatever text the strings contain.", "quantifier": "all strings", "why_tests_cant": "needs a particular string", "anchors": ["internal/function_aggregate_option.go:parseAggregateOptions"]}
{"id": "C74", "title": "GROUP BY keys separate distinct groups", "statement": "Rows are grouped together iff their keys are equal.", "quantifier": "all key tuples", "why_tests_cant": "all pairs of keys", "anchors": ["internal/function_register.go:zetasqlite_group_by", "internal/function_window_option.go:WindowFuncAggregatedStatus.Partition"]}
{"id": "C75", "title": "ROWS frames select the documented rows", "statement": "For ROWS BETWEEN a AND b the function sees exactly the rows of the partition whose position differs from the current row by an offset between a and b.", "quantifier": "all partitions, positions and frame bounds", "why_tests_cant": "any partition size and bounds", "anchors": ["internal/function_window_option.go:getIndexFromBoundaryByRows", "internal/function_window_option.go:Done"]}
{"id": "C76", "title": "RANGE frames select peers by value", "statement": "For RANGE frames the function sees exactly the rows whose order key differs from the current one by an amount between the bounds.", "quantifier": "all partitions and bounds", "why_tests_cant": "any partition, ties and gaps", "anchors": ["internal/function_window_option.go:getIndexFromBoundaryByRange", "internal/function_window_option.go:lookupMinIndex", "internal/function_window_option.go:lookupMaxIndex"]}
{"id": "C77", "title": "Partitions are independent", "statement": "The window result for a row depends only on the rows with the same partition key.", "quantifier": "all tables", "why_tests_cant": "needs colliding partition keys", "anchors": ["internal/function_window_option.go:Partition", "internal/function_window_option.go:Step"]}
{"id": "C78", "title": "ROW_NUMBER, RANK, DENSE_RANK number the ordered partition", "statement": "ROW_NUMBER is 1..n in order, RANK is 1 + the number of rows strictly before, DENSE_RANK 1 + the number of distinct keys before.", "quantifier": "all partitions", "why_tests_cant": "any size and key values (negative ones included)", "anchors": ["internal/function_window.go:WINDOW_ROW_NUMBER", "internal/function_window.go:WINDOW_RANK", "internal/function_window.go:WINDOW_DENSE_RANK"]}
{"id": "C79", "title": "LEAD, LAG, FIRST_VALUE, LAST_VALUE, NTH_VALUE address rows by position", "statement": "LAG/LEAD(x, k) is x k rows before/after, the default outside; NTH_VALUE(x, n) is the n-th row of the frame, NULL if there is none.", "quantifier": "all partitions, offsets and n", "why_tests_cant": "any size and offset", "anchors": ["internal/function_window.go:WINDOW_LAG", "internal/function_window.go:WINDOW_LEAD", "internal/function_window.go:WINDOW_NTH_VALUE"]}
{"id": "C80", "title": "NTILE splits into buckets of near-equal size", "statement": "NTILE(n) assigns 1..n in order with bucket sizes differing by at most one, larger ones first.", "quantifier": "all partition sizes and n", "why_tests_cant": "any size", "anchors": ["internal/function_window.go:WINDOW_NTILE"]}
{"id": "C81", "title": "FORMAT %d, %' and width print the number", "statement": "FORMAT('%d', n) is the decimal text, with ' grouped by thousands, and removing the commas gives the plain text; width pads to at least the width.", "quantifier": "all integers and widths", "why_tests_cant": "all 64-bit integers", "anchors": ["internal/function_format.go:parseInteger", "internal/function_format.go:parseFormat"]}
{"id": "C82", "title": "Wildcard tables read exactly the tables with the prefix", "statement": "Selecting from `prefix*` reads exactly the tables whose name starts with the prefix.", "quantifier": "all catalogs and prefixes", "why_tests_cant": "all names", "anchors": ["internal/wildcard_table.go:createWildcardTable"]}
{"id": "C83", "title": "Generated column names never collide", "statement": "In the generated SQL, two different columns of a query never get the same name, whatever the user named them.", "quantifier": "all column names and ids", "why_tests_cant": "all names, including ones containing #", "anchors": ["internal/formatter.go:uniqueColumnName"]}
{"id": "C84", "title": "A table reference reads the table whose columns it was checked against", "statement": "The table whose schema a query is analysed with is the table whose rows the query reads, however the reference is abbreviated under the connection's name path.", "quantifier": "all DDL histories, name paths and references", "why_tests_cant": "the two resolutions (catalog look-up and name formatting) are separate code paths and agree on most inputs; only some combinations of name path and creation order separate them", "anchors": ["internal/catalog.go: FindTable", "internal/formatter.go: getTableName", "internal/name_path.go: mergePath"]}
{"id": "C85", "title": "TRUNCATE empties the table its reference denotes", "statement": "TRUNCATE TABLE ref removes all rows of the table ref denotes under the name path and touches no other table.", "quantifier": "all sets of tables, name paths and references", "why_tests_cant": "depends on every combination of name path and table path", "anchors": ["internal/analyzer.go: newTruncateStmtAction", "internal/stmt_action.go: TruncateStmtAction"]}
{"id": "C86", "title": "A missing named argument is reported", "statement": "If a statement refers to a named parameter for which no argument of that name is passed, the call fails instead of running with another value.", "quantifier": "all parameter lists and argument lists", "why_tests_cant": "needs every combination of present, missing and extra names", "anchors": ["internal/analyzer.go:getArgsFromParams"]}
{"id": "C87", "title": "EXTRACT of weeks and ISO weeks follows the calendar", "statement": "EXTRACT(ISOYEAR|ISOWEEK FROM d) are the ISO 8601 year and week of d; EXTRACT(WEEK FROM d) is the number of Sundays of the year up to d.", "quantifier": "all dates", "why_tests_cant": "The errors sit at year ends and depend on the weekday of January 1st; a handful of sampled dates misses them.", "anchors": ["internal/function.go:EXTRACT"]}
{"id": "C88", "title": "DATE(y, m, d) and EXTRACT are inverse", "statement": "DATE(y, m, d) of a valid civil date is that date: EXTRACT gives y, m and d back, and rebuilding a date from its fields gives the same date.", "quantifier": "all dates, including leap days and years before 1970", "why_tests_cant": "Calendar arithmetic has to be right in every year of the 400-year cycle.", "anchors": ["internal/function_date.go:DATE", "internal/function.go:EXTRACT"]}
{"id": "C89", "title": "DATE_DIFF undoes DATE_ADD", "statement": "DATE_DIFF(DATE_ADD(d, INTERVAL n part), d, part) = n for DAY, WEEK, MONTH and YEAR.", "quantifier": "all dates and counts in range", "why_tests_cant": "Relates two functions over all dates; clamping at month ends and 64-bit durations only matter for special pairs.", "anchors": ["internal/function_date.go:DATE_ADD", "internal/function_date.go:DATE_DIFF"]}
{"id": "C90", "title": "Integer math functions are exact or NULL", "statement": "On INT64 arguments MOD, ABS, SAFE_ADD, SAFE_SUBTRACT, SAFE_MULTIPLY and SAFE_NEGATE return the mathematical result when it fits in 64 bits; otherwise ABS fails and the SAFE_ functions return NULL.", "quantifier": "all 64-bit integers", "why_tests_cant": "the failures sit above 2^53 and at the ends of the 64-bit range", "anchors": ["internal/function_math.go:MOD", "internal/function_math.go:ABS", "internal/function_math.go:SAFE_ADD", "internal/function_math.go:SAFE_SUBTRACT", "internal/function_math.go:SAFE_MULTIPLY", "internal/function_math.go:SAFE_NEGATE"]}
{"id": "C92", "title": "GENERATE_DATE_ARRAY enumerates the dates", "statement": "GENERATE_DATE_ARRAY(a, b, INTERVAL s part) returns a, a + s parts, a + 2s parts, ... up to b inclusive, each computed from a by the rule of DATE_ADD; the empty array when b lies on the wrong side; an error for step 0.", "quantifier": "all dates, steps and parts", "why_tests_cant": "month ends, leap days and the accumulated drift need every date and step", "anchors": ["internal/function_array.go:generateDateArray", "internal/value.go:DateValue.AddDateWithInterval"]}
{"id": "C91", "title": "CAST of FLOAT64 to INT64 rounds half away from zero", "statement": "CAST(x AS INT64) of a FLOAT64 value returns the nearest integer, halves going away from zero, and fails for NaN, infinities and values outside the 64-bit range.", "quantifier": "all FLOAT64 values", "why_tests_cant": "2^64 values; the failures are every value with a fractional part of one half or more", "anchors": ["internal/value.go:FloatValue.ToInt64"]}
{"id": "C93", "title": "NUMERIC values have at most nine decimal digits after the point", "statement": "The result of a NUMERIC operation is rounded to nine decimal digits, so that two NUMERIC values that print the same are equal.", "quantifier": "all NUMERIC operands", "why_tests_cant": "every quotient", "anchors": ["internal/value.go:NumericValue.Div", "internal/value.go:NumericValue.toString"]}
{"id": "C94", "title": "CAST between INT64 and STRING", "statement": "CAST(CAST(i AS STRING) AS INT64) = i for every i; CAST(s AS INT64) succeeds exactly on an optional sign followed by decimal digits whose value fits in 64 bits (or a hexadecimal number after 0x) and returns that value; it fails on every other string, including the empty one.", "quantifier": "all integers and strings", "why_tests_cant": "all 2^64 integers and all strings", "anchors": ["internal/value.go:StringValue.ToInt64", "internal/value.go:IntValue.ToString"]}
{"id": "C95", "title": "CAST between BOOL and STRING", "statement": "CAST(b AS STRING) is 'true' or 'false'; CAST(s AS BOOL) accepts exactly the strings true and false in any letter case and fails on every other string.", "quantifier": "all strings", "why_tests_cant": "all strings", "anchors": ["internal/value.go:StringValue.ToBool", "internal/value.go:BoolValue.ToString"]}
{"id": "C96", "title": "LEFT and RIGHT take exactly the requested end of the text", "statement": "LEFT(s, n) and RIGHT(s, n) are the first and the last min(n, length) characters (bytes for BYTES) of s; a negative n is an error.", "quantifier": "all strings, byte strings and lengths", "why_tests_cant": "The claim ranges over all texts, including multi-byte characters at the cut.", "anchors": ["internal/function_string.go:LEFT", "internal/function_string.go:RIGHT"]}
{"id": "C97", "title": "REPLACE and REPEAT rewrite every occurrence", "statement": "REPLACE(s, from, to) replaces all non-overlapping occurrences of from, leftmost first, and leaves s unchanged when from is empty; REPEAT(s, n) is s written n times, and a negative n is an error, not a crash.", "quantifier": "all texts and counts", "why_tests_cant": "Overlaps, empty search texts and multi-byte boundaries cannot be enumerated.", "anchors": ["internal/function_string.go:REPLACE", "internal/function_string.go:REPEAT"]}
{"id": "C98", "title": "Lengths add up under concatenation", "statement": "CONCAT(a, b, ...) is the arguments one after the other and LENGTH of it the sum of their lengths, in characters for STRING and in bytes for BYTES; LENGTH(s) <= BYTE_LENGTH(s), with equality exactly for ASCII texts.", "quantifier": "all lists of texts, all lists of byte strings", "why_tests_cant": "Quantifies over all character sequences.", "anchors": ["internal/function_string.go:CONCAT", "internal/function_string.go:LENGTH", "internal/function_string.go:BYTE_LENGTH"]}
{"id": "C99", "title": "SAFE_CONVERT_BYTES_TO_STRING always yields valid text", "statement": "SAFE_CONVERT_BYTES_TO_STRING(b) is valid UTF-8 for all bytes, equals b exactly when b is valid, and is idempotent.", "quantifier": "all byte strings", "why_tests_cant": "All byte sequences, including every malformed one.", "anchors": ["internal/function_string.go:SAFE_CONVERT_BYTES_TO_STRING"]}
{"id": "C100", "title": "Dates and times read back from their own text", "statement": "The text of a DATE, a TIME or a DATETIME (years 0 to 9999, at most microsecond precision) is read as the same date, time of day or date and time, and two different DATEs or DATETIMEs never have the same text.", "quantifier": "all days and instants of years 0 to 9999", "why_tests_cant": "Millions of days and unboundedly many fractions; trailing zeros are dropped from fractions.", "anchors": ["internal/value.go:DateValue.ToString", "internal/value.go:TimeValue.ToString", "internal/value.go:DatetimeValue.ToString", "internal/value.go:parseDate", "internal/value.go:parseTime", "internal/value.go:parseDatetime"]}
{"id": "C101", "title": "Only text of an existing date or time is read as one", "statement": "A string is read as a DATE exactly when it is YYYY-MM-DD for a day of the calendar; as a TIME exactly when it is H:MM:SS or HH:MM:SS with an optional fraction, each part in range; as a DATETIME exactly when it is such a date, a T or blanks, and such a time. It then denotes exactly what it spells (fractions truncated to nanoseconds). Every other string is an error.", "quantifier": "all strings", "why_tests_cant": "The set of strings is infinite; tests cover a few malformed ones.", "anchors": ["internal/value.go:parseDate", "internal/value.go:parseTime", "internal/value.go:parseDatetime"]}
{"id": "C102", "title": "TRIM, LTRIM and RTRIM remove exactly the characters asked for", "statement": "With a STRING and a set of characters given as a STRING, LTRIM (RTRIM) returns the text without its longest leading (trailing) run of characters of the set, TRIM without both; no other character is removed or changed.", "quantifier": "all Unicode strings and character sets", "why_tests_cant": "Strings, sets and the multi-byte characters in them are unbounded.", "anchors": ["internal/function_string.go:TRIM", "internal/function_string.go:LTRIM", "internal/function_string.go:RTRIM"]}
{"id": "C103", "title": "Trimming BYTES and default trimming", "statement": "TRIM, LTRIM and RTRIM of BYTES remove leading and trailing bytes of the given set, and without a set they remove white space.", "quantifier": "all byte strings, sets and strings", "why_tests_cant": "The inputs are unbounded and the binders treat BYTES sets differently per function.", "anchors": ["internal/function_bind.go:bindLtrim", "internal/function_bind.go:bindRtrim", "internal/function_bind.go:bindTrim", "internal/value.go:BytesValue.ToString"]}
{"id": "C104", "title": "IPv4 bytes and integers", "statement": "NET.IPV4_TO_INT64 gives, for every 4-byte value, an integer n with 0 <= n < 2^32 from which NET.IPV4_FROM_INT64 gives the same 4 bytes back, and it is an error for every BYTES value of another length.", "quantifier": "every BYTES value", "why_tests_cant": "2^32 values, and every length.", "anchors": ["internal/function_net.go:NET_IPV4_FROM_INT64,NET_IPV4_TO_INT64"]}
{"id": "C105", "title": "IPv4 texts", "statement": "NET.IP_FROM_STRING reads a 4-byte address from a text exactly when the text is the one NET.IP_TO_STRING prints for these bytes: four decimal numbers from 0 to 255 without leading zeros, separated by points.", "quantifier": "every text and every 4-byte address", "why_tests_cant": "The texts are unbounded; tests try a few malformed ones.", "anchors": ["internal/function_net.go:NET_IP_FROM_STRING,NET_IP_TO_STRING"]}
{"id": "C106", "title": "COUNT(*), COUNT(x) and COUNTIF count", "statement": "COUNT(*) returns the number of rows of the group, COUNT(x) the number of rows where x is not NULL, COUNTIF(x) the number of rows where x is TRUE; 0 for an empty group.", "quantifier": "all row sequences with fewer than 2^63 rows", "why_tests_cant": "groups are unbounded", "anchors": ["internal/function_aggregate.go:COUNT", "internal/function_aggregate.go:COUNT_STAR", "internal/function_aggregate.go:COUNTIF"]}
{"id": "C107", "title": "MIN and MAX return a least and a greatest value", "statement": "Over comparable values MAX returns one of the non-NULL values such that none is after it, MIN one such that none is before it, NULL if there is none; ANY_VALUE returns the first non-NULL value.", "quantifier": "all row sequences of pairwise comparable values (NaN apart)", "why_tests_cant": "all value sequences of every comparable type", "anchors": ["internal/function_aggregate.go:MIN", "internal/function_aggregate.go:MAX", "internal/function_aggregate.go:ANY_VALUE"]}
{"id": "C108", "title": "SUM over INT64 and NUMERIC is exact and independent of row order", "statement": "SUM of INT64 values is their sum whenever the sum is in INT64 range, even if partial sums are not; SUM of NUMERIC values is their exact sum; NULL if there is no non-NULL value; reordering the rows does not change it.", "quantifier": "all row sequences and permutations", "why_tests_cant": "partial sums overflow only for particular orders", "anchors": ["internal/function_aggregate.go:SUM", "internal/value.go:IntValue.Add", "internal/value.go:NumericValue.Add"]}
{"id": "C109", "title": "ARRAY_AGG keeps the rows in order", "statement": "ARRAY_AGG without ORDER BY returns the values of the rows in order, the first n with LIMIT n, and fails if a value is NULL.", "quantifier": "all row sequences and limits n >= 0", "why_tests_cant": "unbounded groups", "anchors": ["internal/function_aggregate.go:ARRAY_AGG"]}
{"id": "C110", "title": "STRING_AGG joins with the given delimiter", "statement": "STRING_AGG(x, d) is the non-NULL strings in order with d between them, NULL if there is none.", "quantifier": "all string sequences and delimiters", "why_tests_cant": "any delimiter, including the empty one", "anchors": ["internal/function_aggregate.go:STRING_AGG", "internal/function_bind.go:bindStringAgg"]}
{"id": "C111", "title": "LOGICAL_AND and LOGICAL_OR fold the non-NULL values", "statement": "LOGICAL_AND is TRUE iff all non-NULL values are, LOGICAL_OR iff one is; NULL if there is none.", "quantifier": "all sequences of BOOL and NULL", "why_tests_cant": "unbounded groups", "anchors": ["internal/function_aggregate.go:LOGICAL_AND", "internal/function_aggregate.go:LOGICAL_OR"]}
{"id": "C112", "title": "A ROWS frame that contains the current row is exactly those rows", "statement": "For a ROWS frame that starts at or before the current row and ends at or after it, COUNT(*), COUNT and ARRAY_AGG see exactly the rows of the ordered partition within the bounds.", "quantifier": "all tables of the common key types, all bounds whose offset plus the table size fits int64, all rows", "why_tests_cant": "bounds, partition sizes and positions interact; tests fix a few", "anchors": ["internal/function_window_option.go:WindowFuncAggregatedStatus.Done", "internal/function_window.go:WINDOW_COUNT_STAR"]}
{"id": "C113", "title": "ROW_NUMBER numbers the ordered partition 1..n", "statement": "Every row gets its position in the order of its partition, so each number from 1 to the size of the partition is given to exactly one row.", "quantifier": "all tables of the common key types, all rows", "why_tests_cant": "any order, any ties, any number of partitions", "anchors": ["internal/function_window.go:WINDOW_ROW_NUMBER"]}
{"id": "C114", "title": "NTILE starts at 1 and never skips a bucket", "statement": "The first row of the ordered partition is in bucket 1 and the next row is in the same or the next bucket.", "quantifier": "all tables of the common key types, all n > 0", "why_tests_cant": "all partition sizes and n", "anchors": ["internal/function_window.go:WINDOW_NTILE"]}
{"id": "C115", "title": "Window AVG is the sum of the values over their number", "statement": "AVG(x) OVER is the sum of the non-NULL values of the frame divided by how many there are.", "quantifier": "all ROWS frames of FLOAT64", "why_tests_cant": "needs frames with NULLs at any place", "anchors": ["internal/function_window.go:WINDOW_AVG"]}
{"id": "C116", "title": "CUME_DIST and PERCENT_RANK are shares of the partition", "statement": "CUME_DIST is the number of rows not after this one over the size of the partition, PERCENT_RANK the number of rows before over the size less one.", "quantifier": "all tables of the common key types", "why_tests_cant": "ties at any place", "anchors": ["internal/function_window.go:WINDOW_CUME_DIST", "internal/function_window.go:WINDOW_PERCENT_RANK"]}
{"id": "C117", "title": "FIRST_VALUE and LAST_VALUE with RESPECT or IGNORE NULLS", "statement": "Over a ROWS frame that contains the current row, FIRST_VALUE and LAST_VALUE are the first and last value of the frame with RESPECT NULLS, and the first and last non-NULL value with IGNORE NULLS, NULL if there is none.", "quantifier": "all tables of the common key types, all such frames, all rows", "why_tests_cant": "NULLs at any place of any frame", "anchors": ["internal/function_window.go:WINDOW_FIRST_VALUE", "internal/function_window.go:WINDOW_LAST_VALUE"]}
{"id": "C118", "title": "CREATE TABLE makes the table its mode says", "statement": "CREATE TABLE of a new name makes a table with the rows of its query (none without one) and registers it; OR REPLACE does so in place of an existing table; IF NOT EXISTS leaves an existing table as it is; without either, a name that is taken makes it fail and nothing changes. No other table is touched.", "quantifier": "all databases, catalogs, names, modes, rows and numbers of automatic indexes", "why_tests_cant": "every state of the database and catalog the statement can meet", "anchors": ["internal/stmt_action.go:CreateTableStmtAction.exec", "internal/spec.go:SQLiteSchema"]}
{"id": "C119", "title": "A statement that fails changes nothing", "statement": "When Exec of a single statement reports an error, tables, catalog and stored catalog are as before.", "quantifier": "all statements and all points at which SQLite can fail", "why_tests_cant": "needs a failure at every SQLite call", "anchors": ["internal/stmt_action.go:CreateTableStmtAction.exec", "internal/stmt_action.go:MergeStmtAction.exec", "driver.go:ZetaSQLiteConn.ExecContext"]}
{"id": "C120", "title": "Adding and subtracting clock units is exact", "statement": "TIMESTAMP_ADD/SUB and DATETIME_ADD/SUB with MICROSECOND..HOUR move the value by exactly the number of units, and TIMESTAMP_DIFF/DATETIME_DIFF give the number of whole units between two values, so the difference undoes the addition.", "quantifier": "all values from 0001 to 9999, all counts and parts", "why_tests_cant": "the space of values is huge and the failures need distances of centuries", "anchors": ["internal/function_timestamp.go:TIMESTAMP_ADD", "internal/function_timestamp.go:TIMESTAMP_DIFF", "internal/function_datetime.go:DATETIME_ADD", "internal/function_datetime.go:DATETIME_DIFF"]}
{"id": "C121", "title": "TIMESTAMP_ADD in days adds 24 hours per day", "statement": "TIMESTAMP_ADD(t, INTERVAL n DAY) is n times 24 hours after t on every machine.", "quantifier": "all instants, counts and process time zones", "why_tests_cant": "the failure depends on the machine's zone and on daylight saving changes", "anchors": ["internal/function_timestamp.go:TIMESTAMP_ADD", "internal/function_timestamp.go:TIMESTAMP_SUB", "internal/decoder.go:DecodeValue"]}
{"id": "C122", "title": "DATETIME_ADD with a calendar part changes the date as DATE_ADD does", "statement": "With DAY, WEEK, MONTH, QUARTER or YEAR, DATETIME_ADD and DATETIME_SUB keep the time of day and give the date DATE_ADD and DATE_SUB give; they fail exactly when those fail.", "quantifier": "all datetimes, counts and parts", "why_tests_cant": "unbounded values", "anchors": ["internal/function_datetime.go:DATETIME_ADD", "internal/function_datetime.go:DATETIME_SUB"]}
{"id": "C123", "title": "Differences in days", "statement": "TIMESTAMP_DIFF(a, b, DAY) is the number of whole days between the instants, DATETIME_DIFF(a, b, DAY) the number of midnights between them.", "quantifier": "all pairs of values", "why_tests_cant": "rounding cases depend on both clocks", "anchors": ["internal/function_timestamp.go:TIMESTAMP_DIFF", "internal/function_datetime.go:DATETIME_DIFF", "internal/function_date.go:DATE_DIFF"]}
{"id": "C124", "title": "Conversions from TIMESTAMP use UTC unless a zone is given", "statement": "DATE(t), DATETIME(t) and TIME(t) give the date and clock of the instant in UTC, whatever the time zone of the machine.", "quantifier": "all instants and process time zones", "why_tests_cant": "tests run in one zone", "anchors": ["internal/function_date.go:DATE", "internal/function_datetime.go:DATETIME", "internal/function_time.go:TIME", "internal/decoder.go:DecodeValue"]}
{"id": "C125", "title": "TIME arithmetic wraps at midnight", "statement": "TIME_ADD and TIME_SUB move the time of day by the given number of units modulo 24 hours, and TIME_DIFF is the number of whole units between two times.", "quantifier": "all times, counts and parts", "why_tests_cant": "the overflow needs very large counts", "anchors": ["internal/function_time.go:TIME_ADD", "internal/function_time.go:TIME_SUB", "internal/function_time.go:TIME_DIFF"]}
{"id": "C126", "title": "EXTRACT of clock parts and construction from fields are inverse", "statement": "EXTRACT(HOUR, MINUTE, SECOND, MILLISECOND, MICROSECOND) are the fields of the time of day, in their ranges and together determining it; DATETIME(y, m, d, h, mi, s) and TIME(h, mi, s) of existing fields have exactly those fields.", "quantifier": "all wall clocks and all field values", "why_tests_cant": "unbounded values, dates before 1970 included", "anchors": ["internal/function.go:EXTRACT", "internal/function_datetime.go:DATETIME", "internal/function_time.go:TIME"]}
{"id": "C127", "title": "Time zone offsets mean what they say", "statement": "A zone written as +HH:MM, -HH:MM, +HH or -HH is that far east or west of UTC, and any other name is the one of the time zone database.", "quantifier": "all offsets and names", "why_tests_cant": "most offsets have no minutes", "anchors": ["internal/util.go:toLocation"]}
{"id": "C128", "title": "A zone name means the same at every time", "statement": "What a time zone name resolves to, or whether it is refused, does not depend on the names used before in the process, by any connection.", "quantifier": "all histories of zone names, all names, any interleaving", "why_tests_cant": "histories are unbounded", "anchors": ["internal/util.go:toLocation", "internal/util.go:getCachedLocation", "internal/util.go:setLocationCache"]}
{"id": "C129", "title": "TIMESTAMP and DATETIME convert back and forth in a given zone", "statement": "In a zone of fixed offset, TIMESTAMP(dt, zone) = t iff DATETIME(t, zone) = dt; DATE and TIME of t in the zone are the two halves of that DATETIME, and EXTRACT AT TIME ZONE reads its parts; the machine's own zone plays no role.", "quantifier": "all instants, datetimes, offsets and process zones", "why_tests_cant": "unbounded values", "anchors": ["internal/function_timestamp.go:TIMESTAMP", "internal/function_datetime.go:DATETIME", "internal/util.go:modifyTimeZone", "internal/function.go:EXTRACT"]}
{"id": "C130", "title": "DATE, DATETIME and TIME of fields that do not exist fail", "statement": "DATETIME(y, m, d, h, mi, s) and TIME(h, mi, s) fail unless the fields name an existing date and time of day.", "quantifier": "all field values", "why_tests_cant": "unbounded field values", "anchors": ["internal/function_datetime.go:DATETIME", "internal/function_time.go:TIME"]}
{"id": "C131", "title": "JUSTIFY keeps the length of an interval as written", "statement": "For every interval whose minutes and seconds are under 60 in magnitude (the form intervals are printed in), JUSTIFY_DAYS, JUSTIFY_HOURS and JUSTIFY_INTERVAL keep its length (30-day months, 24-hour days), bring the days under 30 and the hours under 24, and leave minutes, seconds and fractions alone.", "quantifier": "all intervals within BigQuery's limits with minutes and seconds under 60", "why_tests_cant": "Intervals have seven integer fields; carries between them go wrong only for particular signs and sizes.", "anchors": ["internal/function_interval.go:JUSTIFY_DAYS", "internal/function_interval.go:JUSTIFY_HOURS", "internal/function_interval.go:JUSTIFY_INTERVAL"]}
{"id": "C132", "title": "INTERVAL n part is n of the part", "statement": "INTERVAL n part and MAKE_INTERVAL give an interval of exactly n of the part, for every part and every n, or fail.", "quantifier": "all parts and 64-bit n", "why_tests_cant": "The count is stored in 32 bits: only counts beyond 2147483647 show it.", "anchors": ["internal/function_interval.go:INTERVAL", "internal/function_interval.go:MAKE_INTERVAL"]}
{"id": "C133", "title": "DATE or DATETIME plus or minus an INTERVAL", "statement": "Adding an interval moves the date by its months, clamped to the end of the month, then by its days and clock; subtracting does the same backwards; without months the one undoes the other.", "quantifier": "all dates, datetimes and intervals", "why_tests_cant": "Only combinations of day, month and interval that leave the month show the difference.", "anchors": ["internal/value.go:DateValue.Add", "internal/value.go:DateValue.Sub", "internal/value.go:DatetimeValue.Add", "internal/value.go:DatetimeValue.Sub"]}
{"id": "C134", "title": "DATE minus DATE is the number of days between them", "statement": "d1 - d2 is an interval of exactly the number of days from d2 to d1.", "quantifier": "all pairs of dates", "why_tests_cant": "The difference goes through a 64-bit number of nanoseconds: dates more than 292 years apart are needed.", "anchors": ["internal/value.go:DateValue.Sub"]}
{"id": "C135", "title": "TIMESTAMP plus an INTERVAL", "statement": "Adding an interval of days and clock parts to a TIMESTAMP moves the instant by exactly its length, whatever the zone of the process.", "quantifier": "all timestamps, intervals and zones of the process", "why_tests_cant": "Depends on the zone rules of the machine and on instants near a change of offset.", "anchors": ["internal/value.go:TimestampValue.Add", "internal/value.go:TimestampValue.Sub"]}
{"id": "C136", "title": "GROUP BY separates exactly for most types", "statement": "For key columns of type INT64, STRING, BOOL, NUMERIC, DATE, DATETIME or TIME, NULLs included, two rows are in one group exactly when their keys are equal column by column, in every zone the process may run in; so the groups partition the rows.", "quantifier": "all rows and column types among these", "why_tests_cant": "Equality must hold for all pairs of keys, not for chosen ones: a formatting that drops a digit merges only particular pairs.", "anchors": ["internal/function_register.go:zetasqlite_group_by", "internal/value.go:Interface", "internal/formatter.go:AggregateScanNode.FormatSQL"]}
{"id": "C137", "title": "A query with subqueries returns what it was resolved to", "statement": "A SELECT with joins (inner, LEFT, RIGHT, FULL, cross), UNNEST (alone, correlated, joined with a table, WITH OFFSET), conditions, GROUP BY and HAVING, ORDER BY with NULLS FIRST or LAST, LIMIT and OFFSET, set operations, and scalar or EXISTS subqueries, nested and correlated in any way, is accepted and returns the rows that its resolved form means: every column reference reads the column it was resolved to, whatever the columns are called. The right side of a join is not itself a join (C139), a condition is not put on a query with LIMIT (C140) or on an aggregate without GROUP BY (C225), scalar subqueries give at most one row (C141), set operations are not INTERSECT ALL or EXCEPT ALL (C223) and list no column twice in their first input (C224), and LEFT JOIN UNNEST has an ON (C245).", "quantifier": "all queries of these forms, names, tables and functions; where a condition is put on a subquery that has a condition, an ORDER BY or a GROUP BY of its own, names have no opening parenthesis or line feed and no ON is a call without arguments", "why_tests_cant": "all nestings and name clashes", "anchors": ["internal/formatter.go:FormatSQL", "internal/analyzer.go:Analyze"]}
{"id": "C138", "title": "DELETE and UPDATE read the columns their expressions were resolved to", "statement": "The condition of a DELETE or UPDATE, and the values an UPDATE sets, read the columns they were resolved to, also inside correlated subqueries and in subqueries with UNNEST.", "quantifier": "all statements, names and tables", "why_tests_cant": "all name clashes between a table and the subqueries of the statement", "anchors": ["internal/formatter.go:DeleteStmtNode", "internal/formatter.go:UpdateStmtNode", "internal/analyzer.go:newDMLStmtAction"]}
{"id": "C139", "title": "Parenthesised joins mean what they say", "statement": "A join whose right side is itself a join returns what the nesting says.", "quantifier": "all tables and conditions", "why_tests_cant": "all nestings of joins", "anchors": ["internal/formatter.go:JoinScanNode"]}
{"id": "C140", "title": "A condition can be put on any subquery", "statement": "A WHERE over a subquery is accepted whatever the subquery contains.", "quantifier": "all subqueries", "why_tests_cant": "all forms of subquery", "anchors": ["internal/formatter.go:FilterScanNode"]}
{"id": "C141", "title": "A scalar subquery of several rows is an error", "statement": "A scalar subquery that returns more than one row makes the query fail.", "quantifier": "all subqueries and tables", "why_tests_cant": "all table contents", "anchors": ["internal/formatter.go:SubqueryExprNode"]}
{"id": "C142", "title": "UPDATE FROM joins the tables of its FROM clause", "statement": "UPDATE ... FROM updates each row from the row of the FROM clause its condition picks.", "quantifier": "all statements and tables", "why_tests_cant": "all table contents", "anchors": ["internal/formatter.go:UpdateStmtNode"]}
{"id": "C143", "title": "Most format elements print their documented text", "statement": "FORMAT_DATE, FORMAT_DATETIME, FORMAT_TIME and FORMAT_TIMESTAMP replace each of %A %a %B %b %h %C %D %x %d %F %G %H %k %M %m %n %P %p %R %S %s %T %X %t %Y %y %% by its documented text for the value (in the given zone for a TIMESTAMP), and keep the other characters.", "quantifier": "all formats of these elements, all values with a year from 1000 to 9999, all zones", "why_tests_cant": "all formats and all dates", "anchors": ["internal/function_time_parser.go:formatTime", "internal/function_time_parser.go:formatPatternMap"]}
{"id": "C144", "title": "Every format element prints its documented text", "statement": "Each of the other elements (%I %l %e %j %V %U %W %u %w %g %J %Q %z) prints its documented text.", "quantifier": "all values and elements", "why_tests_cant": "all dates", "anchors": ["internal/function_time_parser.go:formatPatternMap", "internal/function_time_parser.go:quarterFormatter"]}
{"id": "C145", "title": "%E elements print their text and nothing of the format is lost", "statement": "%E4Y, %Ez and %E1S to %E6S print their documented text, and the rest of the format is printed as if it stood alone.", "quantifier": "all formats and values", "why_tests_cant": "all formats", "anchors": ["internal/function_time_parser.go:formatTime", "internal/function_time_parser.go:combinationPatternInfo"]}
{"id": "C146", "title": "FORMAT and PARSE of dates and times never crash", "statement": "No format and no value make a FORMAT_* or PARSE_* function panic.", "quantifier": "all formats, texts and values", "why_tests_cant": "all texts and formats", "anchors": ["internal/function_time_parser.go:parseTimeFormat", "internal/function_time_parser.go:formatTime"]}
{"id": "C147", "title": "Hours from 1 to 12 with AM or PM are read as documented", "statement": "A format with %I and %p and without %H reads the text of a time with its hour from 1 to 12 and its half of the day as that time.", "quantifier": "all formats of such elements with %M and %S, all times", "why_tests_cant": "all formats and times", "anchors": ["internal/function_time_parser.go:parseTimeFormat", "internal/function_time_parser.go:ampmPostProcessor"]}
{"id": "C148", "title": "PARSE_TIME inverts FORMAT_TIME", "statement": "PARSE_TIME(f, FORMAT_TIME(f, t)) = t for every format f that prints the hour from 0 to 23, minute and second, and every t of whole seconds.", "quantifier": "all such formats and times", "why_tests_cant": "all formats and times", "anchors": ["internal/function_time_parser.go:parseTimeFormat", "internal/function_time_parser.go:formatTime"]}
{"id": "C149", "title": "PARSE_TIMESTAMP inverts FORMAT_TIMESTAMP when the offset is printed", "statement": "PARSE_TIMESTAMP(f, FORMAT_TIMESTAMP(f, t, zone)) = t for every format that prints date and time and ends in %Ez, in every zone with an offset of whole minutes.", "quantifier": "all such formats (the year not behind both month and day on 29 February), all instants of whole seconds, all zones", "why_tests_cant": "all formats, instants and zones", "anchors": ["internal/function_time_parser.go:parseTimeFormat", "internal/function_time_parser.go:formatTime", "internal/function_time_parser.go:timeZoneOffsetParser"]}
{"id": "C150", "title": "FORMAT replaces its specifiers from left to right", "statement": "A format made of characters, %%, %s, %t and %d %i %o %x %X with an optional 0 flag and width (written or *) yields the characters as they are and each specifier replaced by the text of the next argument or, with *, the next two: numbers in the base of the letter, right-aligned in the width.", "quantifier": "all formats of these specifiers and all their arguments", "why_tests_cant": "formats have unbounded length and any number of arguments", "anchors": ["internal/function_format.go:parseFormat", "internal/function_format.go:parseInteger"]}
{"id": "C151", "title": "FORMAT fails when the arguments do not match the format", "statement": "FORMAT succeeds only when there is exactly one argument of the right type for each specifier (two with *), and fails when arguments are missing, left over or of another type.", "quantifier": "all formats and argument lists", "why_tests_cant": "the argument lists are unbounded", "anchors": ["internal/function_format.go:parseFormat", "internal/function_format.go:validateArgs"]}
{"id": "C152", "title": "FORMAT flags + and space put the sign next to the number", "statement": "%+d prints a sign in front of every number, 0 included, and % d a space in front of numbers that are not negative; the width counts the sign. - left-aligns and # is accepted.", "quantifier": "all integers and widths", "why_tests_cant": "holds or fails depending on the number of digits against the width", "anchors": ["internal/function_format.go:parseInteger"]}
{"id": "C153", "title": "FORMAT precision sets the number of decimals", "statement": "%.nf prints n decimals for every n >= 0, and %.*f takes n from the arguments.", "quantifier": "all precisions and numbers", "why_tests_cant": "the precisions are unbounded", "anchors": ["internal/function_format.go:parseFloat", "internal/function_format.go:parseFormatPrecision"]}
{"id": "C154", "title": "FORMAT width applies to strings", "statement": "%ws and %*s print the string right-aligned in w characters.", "quantifier": "all strings and widths", "why_tests_cant": "all strings and widths", "anchors": ["internal/function_format.go:parseString"]}
{"id": "C155", "title": "FORMAT prints NULL for %t and %T", "statement": "FORMAT returns NULL when the format or an argument is NULL, save that %t and %T print a NULL argument as NULL.", "quantifier": "all argument lists", "why_tests_cant": "argument lists are unbounded", "anchors": ["internal/function_bind.go:bindFormat"]}
{"id": "C156", "title": "FORMAT does not crash", "statement": "No format and no arguments make FORMAT panic: it returns a string, NULL or an error.", "quantifier": "all formats and arguments", "why_tests_cant": "formats are unbounded", "anchors": ["internal/function_format.go:parseFormat", "internal/function_format.go:parseFloat"]}
{"id": "C157", "title": "Set operations match columns by position", "statement": "UNION, INTERSECT and EXCEPT, with ALL or DISTINCT, combine the selected columns of their inputs position by position, whatever the columns are called.", "quantifier": "all lists of inputs, all rows, all column names", "why_tests_cant": "The columns, names and rows of the inputs are unbounded.", "anchors": ["internal/formatter.go:SetOperationScanNode.FormatSQL"]}
{"id": "C158", "title": "UNION, INTERSECT and EXCEPT DISTINCT have each row once", "statement": "With DISTINCT the result holds no two equal rows, and a row is in it exactly when it is in some input (UNION), in all of them (INTERSECT), or in the first and none of the others (EXCEPT); rows are equal when their values are, NULL being equal to NULL. Columns have scalar types and hold no NaN; the first input selects no column twice.", "quantifier": "all numbers of inputs, all rows of INT64, STRING, BYTES, FLOAT64, NUMERIC, BOOL, DATE, DATETIME, TIME and TIMESTAMP columns", "why_tests_cant": "Which texts stand for equal values matters for every pair of values.", "anchors": ["internal/formatter.go:SetOperationScanNode.FormatSQL", "internal/encoder.go:EncodeValue"]}
{"id": "C159", "title": "NaN is a value of its own", "statement": "NaN is not NULL: set operations keep both, and NULLS LAST puts NaN with the numbers.", "quantifier": "all columns of FLOAT64", "why_tests_cant": "One value among 2^64.", "anchors": ["internal/formatter.go:SetOperationScanNode.FormatSQL", "internal/formatter.go:OrderByScanNode.FormatSQL"]}
{"id": "C160", "title": "ORDER BY sorts by its keys, with NULLs where they belong", "statement": "ORDER BY puts rows in the order of their keys, the first difference deciding, each ascending or descending; NULLs come where NULLS FIRST or NULLS LAST says, otherwise first when ascending and last when descending. Keys are scalars and not NaN.", "quantifier": "all lists of keys and modifiers, all rows", "why_tests_cant": "The order of every pair of rows is concerned, whatever the sorting algorithm.", "anchors": ["internal/formatter.go:OrderByScanNode.FormatSQL", "internal/function_register.go:zetasqlite_collate"]}
{"id": "C161", "title": "LIMIT and OFFSET cut the rows", "statement": "LIMIT n OFFSET m with n and m not negative skips the first m rows and returns the next n, or as many as there are.", "quantifier": "all rows, all n and m from 0", "why_tests_cant": "Row counts and limits are unbounded.", "anchors": ["internal/formatter.go:LimitOffsetScanNode.FormatSQL"]}
{"id": "C162", "title": "A negative LIMIT or OFFSET is an error", "statement": "A query parameter that is negative makes LIMIT or OFFSET fail.", "quantifier": "all negative parameters", "why_tests_cant": "Parameters are arbitrary integers.", "anchors": ["internal/formatter.go:LimitOffsetScanNode.FormatSQL"]}
{"id": "C163", "title": "GROUP BY, ROLLUP: one row per group of each grouping set", "statement": "For each grouping set there is one row per group of rows with equal keys, holding the keys, NULL for the keys outside the set, and the aggregates of exactly the rows of the group in their order; the empty set has one row even without input. Keys are INT64, STRING, BOOL, NUMERIC, DATE, DATETIME or TIME.", "quantifier": "all rows, all grouping sets, all aggregates", "why_tests_cant": "Numbers of rows, keys and sets are unbounded.", "anchors": ["internal/formatter.go:AggregateScanNode.FormatSQL", "internal/function_register.go:zetasqlite_group_by"]}
{"id": "C164", "title": "UNNEST gives the elements in order with their offsets", "statement": "UNNEST of an array of scalars has one row per element, NULLs included, in order, with offsets 0, 1, ...; a NULL array has none. Integers, also those in FLOAT64, are below 2^53 and texts are UTF-8.", "quantifier": "all arrays of scalars within these bounds", "why_tests_cant": "Arrays are unbounded.", "anchors": ["internal/formatter.go:ArrayScanNode.FormatSQL", "internal/function_register.go:zetasqlite_decode_array"]}
{"id": "C165", "title": "UNNEST keeps large INT64 values", "statement": "UNNEST of an array of INT64 gives these INT64 values, also beyond 2^53.", "quantifier": "all arrays of INT64", "why_tests_cant": "Concerns every value above 2^53.", "anchors": ["internal/formatter.go:ArrayScanNode.FormatSQL", "internal/decoder.go:decodeFromValueLayout"]}
{"id": "C166", "title": "IN over a subquery follows three-valued logic", "statement": "x IN (subquery) is TRUE when a row equals x, otherwise NULL when x or a row is NULL and there is a row, otherwise FALSE. Values are scalars and not NaN.", "quantifier": "all values and rows of one scalar type", "why_tests_cant": "All combinations of NULLs and equal values.", "anchors": ["internal/formatter.go:SubqueryExprNode.FormatSQL"]}
{"id": "C167", "title": "A WITH query means its entries in order", "statement": "Each entry of WITH is computed over the database and the entries before it, and the query over all of them, whatever their names.", "quantifier": "all lists of entries, names and databases", "why_tests_cant": "Names, numbers of entries and what they read are unbounded.", "anchors": ["internal/formatter.go:WithScanNode.FormatSQL", "internal/formatter.go:WithEntryNode.FormatSQL", "internal/formatter.go:WithRefScanNode.FormatSQL"]}
{"id": "C168", "title": "TO_JSON writes a JSON text of the value", "statement": "TO_JSON of a value, as it reaches the function, gives JSON whose text, read by the JSON grammar, is the document documented for the value: numbers, strings, booleans, base64 for BYTES, arrays and objects in order, null for NULL inside. Values are BOOL, INT64, NUMERIC, BYTES, valid JSON and STRING without other control characters than tab, line ends, backspace and form feed, in arrays and structs of any depth.", "quantifier": "all values built from these types", "why_tests_cant": "Depth, lengths and characters are unbounded; escaping must agree with a grammar.", "anchors": ["internal/function_json.go:TO_JSON", "internal/value.go:ToJSON"]}
{"id": "C169", "title": "TO_JSON_STRING writes wide numbers as strings", "statement": "TO_JSON_STRING gives a JSON text of the value in which INT64 and NUMERIC values that are not whole or lie outside -2^53..2^53 are strings; TO_JSON with stringify_wide_numbers does the same.", "quantifier": "all values of C168", "why_tests_cant": "Concerns every number above 2^53 at any depth.", "anchors": ["internal/function_json.go:TO_JSON_STRING", "internal/value.go:ToJSON"]}
{"id": "C170", "title": "PARSE_JSON reads back what TO_JSON_STRING wrote", "statement": "PARSE_JSON(TO_JSON_STRING(v)) succeeds and equals TO_JSON(v); TO_JSON of the result is itself; values with different documents get different texts.", "quantifier": "all values of C168, all modes", "why_tests_cant": "A round trip over unbounded values.", "anchors": ["internal/function_json.go:PARSE_JSON", "internal/function_json.go:TO_JSON_STRING", "internal/function_json.go:TO_JSON"]}
{"id": "C171", "title": "TO_JSON of a STRING is a JSON string", "statement": "For every STRING, TO_JSON gives a JSON string with the same characters.", "quantifier": "all UTF-8 strings", "why_tests_cant": "Every character of Unicode must be escaped the JSON way.", "anchors": ["internal/function_json.go:TO_JSON", "internal/value.go:StringValue.ToJSON"]}
{"id": "C172", "title": "TO_JSON of dates, times and special floats is JSON", "statement": "TO_JSON of DATE, DATETIME, TIME, TIMESTAMP, NaN and infinities is a valid JSON text.", "quantifier": "all such values", "why_tests_cant": "All dates and times.", "anchors": ["internal/value.go:DateValue.ToJSON", "internal/value.go:TimeValue.ToJSON", "internal/value.go:FloatValue.ToJSON"]}
{"id": "C173", "title": "TO_JSON and TO_JSON_STRING of NULL are null", "statement": "TO_JSON(NULL) is JSON null and TO_JSON_STRING(NULL) the text null; no argument makes them crash.", "quantifier": "all uses with NULL", "why_tests_cant": "All combinations of arguments.", "anchors": ["internal/function_bind.go:bindToJson", "internal/function_bind.go:bindToJsonString"]}
{"id": "C174", "title": "JSON_VALUE returns the text of a scalar", "statement": "JSON_VALUE and JSON_EXTRACT_SCALAR give the characters of the string, true, false or the digits of the whole number the path finds, and NULL for null, arrays, objects and paths that find nothing.", "quantifier": "all documents and paths, whatever the path finds", "why_tests_cant": "Concerns every number and every path.", "anchors": ["internal/function_json.go:JSON_VALUE", "internal/function_json.go:JSON_EXTRACT_SCALAR"]}
{"id": "C175", "title": "JSON_VALUE_ARRAY returns the scalars in order", "statement": "JSON_VALUE_ARRAY and JSON_EXTRACT_STRING_ARRAY give the texts of the scalars of the array found, in order, NULL for null, and NULL for an array with an array or object inside.", "quantifier": "all arrays found by a path", "why_tests_cant": "Arrays are unbounded.", "anchors": ["internal/function_json.go:JSON_VALUE_ARRAY", "internal/function_json.go:JSON_EXTRACT_STRING_ARRAY"]}
{"id": "C176", "title": "JSON_EXTRACT functions agree with the standard ones", "statement": "JSON_QUERY, JSON_QUERY_ARRAY, JSON_VALUE and JSON_VALUE_ARRAY give the same as JSON_EXTRACT, JSON_EXTRACT_ARRAY, JSON_EXTRACT_SCALAR and JSON_EXTRACT_STRING_ARRAY for paths without quotes.", "quantifier": "all documents and all such paths", "why_tests_cant": "Paths and documents are unbounded.", "anchors": ["internal/function_json.go:JSON_EXTRACT", "internal/function_json.go:JSON_QUERY"]}
{"id": "C177", "title": "JSON_TYPE names the kind of the document", "statement": "JSON_TYPE of a JSON value is null, boolean, number, string, array or object as its text says, and NULL for NULL.", "quantifier": "all JSON values", "why_tests_cant": "Texts are unbounded, white space included.", "anchors": ["internal/value.go:JsonValue.Type", "internal/function_bind.go:bindJsonType"]}
{"id": "C178", "title": "STRING, BOOL, INT64 and FLOAT64 of JSON convert the value", "statement": "STRING(JSON) gives the characters of a JSON string and fails for anything else; BOOL, INT64 and FLOAT64 give a value of their type.", "quantifier": "all JSON values", "why_tests_cant": "All documents.", "anchors": ["internal/function_bind.go:bindString", "internal/function_bind.go:bindInt64"]}
{"id": "C179", "title": "Rows hold the values of their columns", "statement": "A value of a column of any type, with arrays and structs nested to any depth, is what Rows.Next puts into the row: INT64, BOOL and FLOAT64 as the Go number or bool, STRING and JSON as the text, BYTES in base64, NUMERIC as its decimal number, DATE, TIME and DATETIME as the texts that name them, TIMESTAMP as its seconds since 1970 (a whole second or at least 100000 microseconds, see C30), ARRAY as a slice of its elements in order, and NULL, and nothing else, as nil. Structs as in C180; values within the limits of C26.", "quantifier": "all column types and all values of them within those limits, of any size and nesting", "why_tests_cant": "types nest without bound and each combination takes another way through the encoding, the cast and the assignment", "anchors": ["internal/rows.go:Next", "internal/rows.go:assignInterfaceValue", "internal/encoder.go:CastValue"]}
{"id": "C180", "title": "STRUCT columns come field by field", "statement": "A STRUCT value whose field names are different and not all empty, with fields of INT64, BOOL, FLOAT64, STRING, DATE, DATETIME, TIME and arrays and structs of these, comes as the list of its fields in the order of the type, each under its name with its value.", "quantifier": "all struct types and values of those kinds, of any width and depth", "why_tests_cant": "the fields go through a map by name; any name or nesting may go wrong", "anchors": ["internal/rows.go:assignInterfaceValue", "internal/encoder.go:CastValue", "internal/value.go:StructValue.Interface"]}
{"id": "C181", "title": "Fields of the same name keep their own values", "statement": "In a STRUCT with several fields of one name, as SELECT AS STRUCT 1 AS a, 2 AS a gives, each field comes with its own value.", "quantifier": "all lists of fields", "why_tests_cant": "tests use different names", "anchors": ["internal/encoder.go:CastValue"]}
{"id": "C182", "title": "A value looks the same inside a STRUCT", "statement": "A NUMERIC, BYTES or TIMESTAMP in a STRUCT comes in the same form as in a column of its own, and different values remain different.", "quantifier": "all values of these types", "why_tests_cant": "tests compare few values", "anchors": ["internal/value.go:Interface", "internal/rows.go:assignInterfaceValue"]}
{"id": "C183", "title": "INT64 fields of a STRUCT without names are integers", "statement": "The INT64 fields of a STRUCT whose fields have no names, as (1, 2), come as int64.", "quantifier": "all lists of integers", "why_tests_cant": "tests of unnamed structs are few", "anchors": ["internal/encoder.go:CastValue", "internal/decoder.go:decodeFromValueLayout"]}
{"id": "C184", "title": "Arguments arrive unchanged", "statement": "A Go value given as an argument (nil, integers in the INT64 range, floats, bools, strings, []byte, time.Time, pointers to them, slices of them, and maps and structs with the fields of the STRUCT type in any order) reaches the query as the value of the type of the parameter that it stands for, exactly as the same literal would, and SELECT of the parameter shows it. An integer given for a BOOL parameter stands for FALSE if it is 0 and for TRUE if it is 1, and is refused otherwise.", "quantifier": "all types, all Go values of these forms, of any nesting; all orders of map entries", "why_tests_cant": "maps are iterated in random order and values nest without bound", "anchors": ["internal/encoder.go:EncodeGoValue", "internal/encoder.go:valueFromGoReflectValue"]}
{"id": "C185", "title": "Unsigned arguments above the INT64 range are refused", "statement": "A uint64 argument above 2^63 - 1 for an INT64 parameter is an error.", "quantifier": "all such integers", "why_tests_cant": "one boundary value is not all of them", "anchors": ["internal/encoder.go:valueFromGoReflectValue"]}
{"id": "C186", "title": "A nil pointer is NULL", "statement": "A nil pointer given as an argument, or inside a slice, map or struct argument, is NULL.", "quantifier": "all arguments that hold a nil pointer, at any depth, for every type", "why_tests_cant": "tests pass values, not nil pointers", "anchors": ["internal/encoder.go:valueFromGoReflectValue", "internal/value.go:isNullValue"]}
{"id": "C187", "title": "sql.Null arguments are their value or NULL", "statement": "sql.NullInt64, NullFloat64, NullBool and NullString arguments are their value if valid and NULL if not.", "quantifier": "all values of these types", "why_tests_cant": "the conversion depends on every argument type", "anchors": ["internal/encoder.go:valueFromGoReflectValue", "driver.go:CheckNamedValue"]}
{"id": "C188", "title": "Fields are matched or refused", "statement": "A field of a STRUCT parameter that the Go struct or map does not have under exactly that spelling, such as name for a Go field Name, is matched regardless of case or refused.", "quantifier": "all field names and all Go structs and maps", "why_tests_cant": "each spelling is another input", "anchors": ["internal/encoder.go:CastValue"]}
{"id": "C189", "title": "CAST to STRING and back is the identity", "statement": "CAST(CAST(v AS STRING) AS T) is v for every INT64, BOOL, NUMERIC, STRING, DATE, DATETIME and TIME, and for every TIMESTAMP when the machine's zone is a whole number of minutes from UTC.", "quantifier": "all such values with years 0 to 9999, microsecond precision and at most nine decimals; all machine zones", "why_tests_cant": "values and their texts are unbounded", "anchors": ["internal/encoder.go:CastValue", "internal/function.go:CAST", "internal/value.go:ToString", "internal/value.go:ToTime"]}
{"id": "C190", "title": "Casts between dates and times", "statement": "CAST of a DATE to DATETIME or TIMESTAMP is its midnight (UTC), of a DATETIME to DATE its day, to TIME its time of day, to TIMESTAMP the same instant in UTC.", "quantifier": "all dates and times of the years 0 to 9999 in microseconds", "why_tests_cant": "they range over all dates and times", "anchors": ["internal/encoder.go:CastValue", "internal/function.go:CAST", "internal/value.go:ToTime"]}
{"id": "C191", "title": "CAST of a TIMESTAMP does not depend on the machine", "statement": "CAST of a TIMESTAMP to DATE, DATETIME or TIME gives its value in UTC, whatever the zone of the machine.", "quantifier": "all timestamps and machine zones", "why_tests_cant": "zones are data of the machine", "anchors": ["internal/encoder.go:CastValue", "internal/decoder.go:decodeFromValueLayout", "internal/value.go:TimestampValue"]}
{"id": "C192", "title": "CAST of a STRING to a date or time", "statement": "A STRING that names a day, a time of day or both is cast to that DATE, TIME or DATETIME, with T or spaces between the two and any fraction cut to microseconds.", "quantifier": "all such texts", "why_tests_cant": "texts are unbounded", "anchors": ["internal/encoder.go:CastValue", "internal/value.go:isDate", "internal/value.go:parseTimestamp"]}
{"id": "C193", "title": "SAFE_CAST", "statement": "SAFE_CAST is NULL where CAST fails, agrees with CAST elsewhere, and never fails.", "quantifier": "all types and values", "why_tests_cant": "all pairs of types and all values", "anchors": ["internal/function.go:CAST"]}
{"id": "C194", "title": "CAST of arrays", "statement": "CAST of an ARRAY to an ARRAY type succeeds exactly if the CAST of every element does and gives these in order; NULL elements and arrays stay NULL.", "quantifier": "all element types and arrays", "why_tests_cant": "arrays of any length", "anchors": ["internal/encoder.go:CastValue", "internal/function.go:CAST"]}
{"id": "C195", "title": "CAST of structs", "statement": "CAST of a STRUCT casts the fields by position, whatever their names.", "quantifier": "all struct types and values", "why_tests_cant": "structs of any number of fields", "anchors": ["internal/encoder.go:CastValue", "internal/function.go:CAST"]}
{"id": "C196", "title": "CAST of STRING to BYTES", "statement": "CAST of a STRING to BYTES gives its bytes.", "quantifier": "all strings", "why_tests_cant": "all strings", "anchors": ["internal/encoder.go:CastValue", "internal/value.go:ToBytes"]}
{"id": "C197", "title": "CAST of BYTES to STRING", "statement": "CAST of BYTES to STRING gives the text with these bytes and fails if they are not UTF-8.", "quantifier": "all byte strings", "why_tests_cant": "all byte strings", "anchors": ["internal/encoder.go:CastValue", "internal/value.go:BytesValue"]}
{"id": "C198", "title": "CAST of STRING to NUMERIC", "statement": "CAST of a STRING to NUMERIC gives the number it writes and fails if it writes none.", "quantifier": "all strings", "why_tests_cant": "all strings", "anchors": ["internal/encoder.go:CastValue", "internal/value.go:ToRat"]}
{"id": "C199", "title": "Numbers survive widening", "statement": "INT64 to NUMERIC and back, INT64 below 2^53 to FLOAT64 and back, and BOOL to INT64 and back are the identity.", "quantifier": "all such numbers", "why_tests_cant": "all 64-bit integers", "anchors": ["internal/encoder.go:CastValue", "internal/value.go:ToRat", "internal/value.go:ToFloat64"]}
{"id": "C200", "title": "Text of a TIMESTAMP", "statement": "CAST of a TIMESTAMP to STRING gives its date, a space, its time and the offset, as documented.", "quantifier": "all timestamps and machine zones", "why_tests_cant": "all timestamps", "anchors": ["internal/value.go:TimestampValue"]}
{"id": "C201", "title": "CAST of STRING rejects texts of another type", "statement": "CAST of a STRING to DATE fails unless the text names a day, to TIME unless it names a time of day; months, days, hours, minutes and seconds may have one digit.", "quantifier": "all texts", "why_tests_cant": "texts are unbounded", "anchors": ["internal/encoder.go:CastValue", "internal/value.go:isTime", "internal/value.go:ToTime"]}
{"id": "C202", "title": "A crash leaves every table in step with the catalog", "statement": "When a process is killed at any moment of a statement outside a transaction, the process that opens the file next lists a table if and only if SQLite holds it.", "quantifier": "every stored state reached by the modelled statements, every script, every moment (number of calls that reached SQLite) at which the process is killed, every later process", "why_tests_cant": "a test kills a process at the few points it can arrange; the claim is about every point, every script and every history of crashes", "anchors": ["driver.go:ExecContext", "internal/stmt_action.go:CreateTableStmtAction.exec", "internal/stmt_action.go:DropStmtAction.exec", "internal/catalog.go:AddNewTableSpec", "internal/catalog.go:Sync"]}
{"id": "C203", "title": "CREATE OR REPLACE TABLE and CREATE TABLE IF NOT EXISTS repair a table after a crash", "statement": "Whatever a crash has left of a table (a table that is not listed, a listed name without a table, both or neither), CREATE OR REPLACE TABLE and CREATE TABLE IF NOT EXISTS of that name succeed in a later process, and afterwards the name is listed and SQLite holds it.", "quantifier": "every state a crash can leave, every table specification that is not temporary; for CREATE OR REPLACE the name must not be a view in SQLite", "why_tests_cant": "a test kills a process at the few points it can arrange; the claim is about every point, every script and every history of crashes", "anchors": ["internal/stmt_action.go:CreateTableStmtAction.exec", "internal/catalog.go:AddNewTableSpec", "internal/spec.go:SQLiteSchema"]}
{"id": "C204", "title": "DROP TABLE IF EXISTS cleans up after a crash", "statement": "After a crash, DROP TABLE IF EXISTS of the name of the interrupted statement succeeds in the next process and leaves neither a table nor a catalog entry.", "quantifier": "every stored state reached by the modelled statements, every script, every moment (number of calls that reached SQLite) at which the process is killed, every later process", "why_tests_cant": "a test kills a process at the few points it can arrange; the claim is about every point, every script and every history of crashes", "anchors": ["internal/stmt_action.go:DropStmtAction.exec", "internal/catalog.go:DeleteTableSpec"]}
{"id": "C205", "title": "Temporary objects do not outlive the process", "statement": "An object created with CREATE TEMP does not exist in a process that is started after the one that created it ended or was killed.", "quantifier": "every stored state reached by the modelled statements, every script, every moment (number of calls that reached SQLite) at which the process is killed, every later process", "why_tests_cant": "a test kills a process at the few points it can arrange; the claim is about every point, every script and every history of crashes", "anchors": ["driver.go:ExecContext", "internal/stmt_action.go:CreateTableStmtAction.Cleanup", "internal/stmt_action.go:CreateFunctionStmtAction.Cleanup"]}
{"id": "C206", "title": "A statement is all or nothing when the process is killed", "statement": "When the process is killed during a statement outside a transaction, the stored tables are those before the statement or those after it.", "quantifier": "every stored state reached by the modelled statements, every script, every moment (number of calls that reached SQLite) at which the process is killed, every later process", "why_tests_cant": "a test kills a process at the few points it can arrange; the claim is about every point, every script and every history of crashes", "anchors": ["internal/stmt_action.go:DMLStmtAction.ExecContext", "internal/stmt_action.go:TruncateStmtAction.exec", "internal/stmt_action.go:MergeStmtAction.exec", "internal/stmt_action.go:CreateTableStmtAction.exec"]}
{"id": "C207", "title": "REGEXP_EXTRACT starts at the given character", "statement": "REGEXP_EXTRACT(s, e, p, n) is the n-th element of REGEXP_EXTRACT_ALL(SUBSTR(s, p), e), and NULL if there are fewer or if p is past the end.", "quantifier": "every regular expression engine whose matches are stretches of the text (a parameter), every text, expression, position and occurrence", "why_tests_cant": "tests try a handful of texts and expressions; the claim is about all of them and about every engine", "anchors": ["internal/function_string.go:REGEXP_EXTRACT", "internal/function_string.go:REGEXP_EXTRACT_ALL", "internal/function_bind.go:bindRegexpExtract"]}
{"id": "C208", "title": "The REGEXP functions agree on whether there is a match", "statement": "For a non-empty STRING s, REGEXP_CONTAINS(s, e) is true exactly when REGEXP_EXTRACT_ALL(s, e) is not empty, when REGEXP_EXTRACT(s, e) is not NULL and when REGEXP_INSTR(s, e) is positive; if it is false, REGEXP_REPLACE(s, e, r) does not change s.", "quantifier": "every regular expression engine whose matches are stretches of the text (a parameter), every text, expression, position and occurrence", "why_tests_cant": "tests try a handful of texts and expressions; the claim is about all of them and about every engine", "anchors": ["internal/function_string.go:REGEXP_CONTAINS", "internal/function_string.go:REGEXP_EXTRACT", "internal/function_string.go:REGEXP_INSTR", "internal/function_string.go:REGEXP_REPLACE"]}
{"id": "C209", "title": "REGEXP_INSTR points at what REGEXP_EXTRACT returns", "statement": "If REGEXP_INSTR(s, e, p, n) is k > 0 then SUBSTR(s, k) starts with REGEXP_EXTRACT(s, e, p, n), and with occurrence_position 1 it is the position just after it.", "quantifier": "every regular expression engine whose matches are stretches of the text (a parameter), every text, expression, position and occurrence", "why_tests_cant": "tests try a handful of texts and expressions; the claim is about all of them and about every engine", "anchors": ["internal/function_string.go:REGEXP_INSTR", "internal/function_string.go:REGEXP_EXTRACT", "internal/function_string.go:SUBSTR"]}
{"id": "C210", "title": "The REGEXP functions work on BYTES as on STRING", "statement": "On BYTES that are ASCII the REGEXP functions give what they give on the STRING with the same characters.", "quantifier": "every regular expression engine whose matches are stretches of the text (a parameter), every text, expression, position and occurrence", "why_tests_cant": "tests try a handful of texts and expressions; the claim is about all of them and about every engine", "anchors": ["internal/function_bind.go:bindRegexpContains", "internal/function_bind.go:bindRegexpExtract", "internal/function_bind.go:bindRegexpExtractAll", "internal/value.go:BytesValue.ToString"]}
{"id": "C211", "title": "REGEXP_REPLACE reads the replacement as documented", "statement": "In the replacement a backslash and a digit stand for the group of that number (0 for the whole match), two backslashes for one, and every other character for itself.", "quantifier": "every engine, text, expression and replacement", "why_tests_cant": "the replacement is rewritten into Go's template syntax by a hand-written loop; the claim is about every replacement", "anchors": ["internal/function_string.go:normalizeReplacement", "internal/function_string.go:REGEXP_REPLACE"]}
{"id": "C212", "title": "The REGEXP functions do not crash", "statement": "No argument of REGEXP_CONTAINS, REGEXP_EXTRACT, REGEXP_EXTRACT_ALL, REGEXP_INSTR or REGEXP_REPLACE crashes the process.", "quantifier": "every regular expression engine whose matches are stretches of the text (a parameter), every text, expression, position and occurrence", "why_tests_cant": "tests try a handful of texts and expressions; the claim is about all of them and about every engine", "anchors": ["internal/function_string.go:normalizeReplacement", "internal/function_string.go:REGEXP_INSTR"]}
{"id": "C213", "title": "INITCAP with delimiters", "statement": "INITCAP(s, d) has as many characters as s; the first one and those that follow a character of d are in upper case, unless they are in d themselves, the characters of d (but for the first one of s) are as in s, and all others are in lower case.", "quantifier": "all strings and delimiters, any per-character case mapping", "why_tests_cant": "the loop skips characters depending on their neighbours; the claim is about every string and set of delimiters", "anchors": ["internal/function_string.go:INITCAP", "internal/function_bind.go:bindInitcap"]}
{"id": "C214", "title": "INITCAP without delimiters", "statement": "Without its second argument INITCAP takes white space and the documented punctuation as delimiters.", "quantifier": "all strings", "why_tests_cant": "tests try a handful of texts and expressions; the claim is about all of them and about every engine", "anchors": ["internal/function_string.go:INITCAP", "internal/function_string.go:defaultInitcapDelimiters"]}
{"id": "C215", "title": "SOUNDEX code", "statement": "SOUNDEX(s) depends only on the ASCII letters of s. It is empty if there are none; otherwise it is the first letter and three digits: the codes of the letters, without those of code 0, equal neighbours merged, the first letter's own code left out, cut or filled with 0 to three.", "quantifier": "all strings", "why_tests_cant": "the loop carries the previous code over skipped letters; the claim is about every string", "anchors": ["internal/function_string.go:SOUNDEX", "internal/function_string.go:soundexMap"]}
{"id": "C216", "title": "WithCurrentTime decides what CURRENT_TIMESTAMP shows", "statement": "In a query whose context was made by WithCurrentTime(ctx, t), CURRENT_TIMESTAMP() is t.", "quantifier": "all times t, all clocks, all queries' views and functions", "why_tests_cant": "Any suite tries a few times near the present; the claim is about every time.Time.", "anchors": ["internal/formatter.go:getFuncNameAndArgs", "internal/context.go:WithCurrentTime", "internal/function_bind.go:bindCurrentTimestamp"]}
{"id": "C217", "title": "A query under WithCurrentTime does not look at the clock", "statement": "A query whose context was made by WithCurrentTime gives the same result whenever it runs, and all its calls of CURRENT_DATE, CURRENT_DATETIME, CURRENT_TIME and CURRENT_TIMESTAMP without a zone show the same instant in the same zone.", "quantifier": "all queries built from the four functions, constants and other functions, all times, all readings of the clock", "why_tests_cant": "Tests run in an instant and cannot choose the readings of the clock.", "anchors": ["internal/formatter.go:getFuncNameAndArgs", "internal/function_bind.go:bindCurrentDate", "internal/function_bind.go:bindCurrentDatetime", "internal/function_bind.go:bindCurrentTime"]}
{"id": "C218", "title": "The current date and time are those of UTC by default", "statement": "CURRENT_DATE(), CURRENT_DATETIME() and CURRENT_TIME() without a zone show the wall clock of UTC.", "quantifier": "all times, all zones of the process, with and without WithCurrentTime", "why_tests_cant": "Test machines run in UTC; the claim is about every zone of the process.", "anchors": ["internal/function_bind.go:bindCurrentDatetime", "internal/util.go:timeFromUnixNano", "internal/function_datetime.go:CURRENT_DATETIME"]}
{"id": "C219", "title": "The functions of the clock take a time zone", "statement": "CURRENT_DATE(z), CURRENT_DATETIME(z), CURRENT_TIME(z) show the wall clock of the zone z, and a z that is no zone is an error.", "quantifier": "all zones, all times, with and without WithCurrentTime", "why_tests_cant": "Tests name a few zones and do not combine them with WithCurrentTime.", "anchors": ["internal/formatter.go:getFuncNameAndArgs", "internal/function_bind.go:bindCurrentDate", "internal/function_bind.go:bindCurrentTime", "internal/util.go:toLocation"]}
{"id": "C220", "title": "All current times in one query agree", "statement": "All calls of the functions of the clock in one query show the same instant.", "quantifier": "all queries, all readings of the clock", "why_tests_cant": "Two readings in one query differ by microseconds; a test sees the difference only if a boundary falls between them.", "anchors": ["internal/function_date.go:CURRENT_DATE", "internal/function_timestamp.go:CURRENT_TIMESTAMP"]}
{"id": "C221", "title": "Current times lie between the start and the end of the query", "statement": "Without WithCurrentTime every instant that a query shows is a reading of the clock made while the query ran, and a call evaluated later never shows an earlier instant.", "quantifier": "all queries, all clocks that do not run backwards", "why_tests_cant": "A test cannot choose the readings.", "anchors": ["internal/function_timestamp.go:CURRENT_TIMESTAMP", "internal/function_bind.go:bindCurrentTimestamp"]}
{"id": "C222", "title": "Views, functions and prepared statements show the time of the query", "statement": "A query that uses a view, a function that was created before, or a statement prepared before shows the current time of the context of that query.", "quantifier": "all bodies, all times of creation and of the query", "why_tests_cant": "The claim is about histories: creation under one context and use under another.", "anchors": ["internal/spec.go:newFunctionSpec", "internal/spec.go:newTableAsViewSpec", "internal/stmt.go:QueryStmt"]}
{"id": "C223", "title": "INTERSECT ALL and EXCEPT ALL work", "statement": "A query that combines two queries by INTERSECT ALL or EXCEPT ALL returns the rows with their multiplicities.", "quantifier": "all inputs, names and tables", "why_tests_cant": "every such query fails, whatever it combines", "anchors": ["internal/formatter.go:SetOperationScanNode"]}
{"id": "C224", "title": "A query in a set operation may select a column twice", "statement": "Each output column of a set operation holds the values of the column at the same position of every input.", "quantifier": "all inputs, also those that list a column twice", "why_tests_cant": "depends on which columns the first input lists", "anchors": ["internal/formatter.go:SetOperationScanNode"]}
{"id": "C225", "title": "HAVING works without GROUP BY", "statement": "A condition on aggregates without GROUP BY is applied to the one row of aggregates.", "quantifier": "all conditions and tables", "why_tests_cant": "all tables", "anchors": ["internal/formatter.go:FilterScanNode", "internal/formatter.go:AggregateScanNode"]}
{"id": "C226", "title": "Goroutines on one database do not crash the process", "statement": "Goroutines may run CREATE, DROP and SELECT statements on connections of one database at the same time; no order of their steps aborts the process.", "quantifier": "every starting catalog, every number of goroutines, every list of statements of each and every schedule", "why_tests_cant": "The outcome depends on how the goroutines interleave; a test sees a few schedules, the claim is about all of them and any number of goroutines.", "anchors": ["driver.go:newDBAndCatalog", "internal/catalog.go:Catalog.AddNewTableSpec", "internal/stmt_action.go:DropStmtAction.exec", "internal/wildcard_table.go:Catalog.createWildcardTable"]}
{"id": "C227", "title": "A table that nobody drops is found", "statement": "A query that names a table which exists before and after, and which no statement creates or drops, finds it whatever the other connections do.", "quantifier": "every catalog with two tables a and b, DROP TABLE a beside a query of b", "why_tests_cant": "The outcome depends on how the goroutines interleave; a test sees a few schedules, the claim is about all of them and any number of goroutines.", "anchors": ["internal/catalog.go:Catalog.resetCatalog", "internal/catalog.go:Catalog.FindTable", "internal/stmt_action.go:DropStmtAction.exec"]}
{"id": "C228", "title": "While nobody drops anything, every table is found", "statement": "If no goroutine runs DROP or removes a temporary object, each lookup of a table that existed at the start finds it.", "quantifier": "every starting catalog, every number of goroutines running statements other than DROP, every schedule", "why_tests_cant": "The outcome depends on how the goroutines interleave; a test sees a few schedules, the claim is about all of them and any number of goroutines.", "anchors": ["internal/catalog.go:Catalog.Sync", "internal/catalog.go:Catalog.AddNewTableSpec", "internal/catalog.go:Catalog.FindTable"]}
{"id": "C229", "title": "Concurrent changes end as some serial order of them would", "statement": "When all goroutines are done, the set of tables is what running their operations one after the other gives, in some order that keeps the order of each goroutine, and the parts of the catalog agree with one another.", "quantifier": "every starting catalog, every list of operations of every number of goroutines, every schedule in which all finish", "why_tests_cant": "The outcome depends on how the goroutines interleave; a test sees a few schedules, the claim is about all of them and any number of goroutines.", "anchors": ["internal/catalog.go:Catalog.Sync", "internal/catalog.go:Catalog.AddNewTableSpec", "internal/catalog.go:Catalog.resetCatalog", "internal/catalog.go:Catalog.DeleteTableSpec"]}
{"id": "C230", "title": "Statements do not deadlock on the catalog", "statement": "At every moment, unless all goroutines are done or the process was aborted, some goroutine can take its next step.", "quantifier": "every starting catalog, every list of operations of every number of goroutines and every schedule", "why_tests_cant": "The outcome depends on how the goroutines interleave; a test sees a few schedules, the claim is about all of them and any number of goroutines.", "anchors": ["internal/catalog.go:Catalog.Sync", "internal/catalog.go:Catalog.AddNewTableSpec", "internal/catalog.go:Catalog.DeleteTableSpec"]}
{"id": "C231", "title": "Temporary tables are seen only by the script that creates them", "statement": "A table made by CREATE TEMP TABLE is not visible to other connections.", "quantifier": "every starting catalog and every name not in it; CREATE TEMP TABLE beside a query of the name on another connection", "why_tests_cant": "The outcome depends on how the goroutines interleave; a test sees a few schedules, the claim is about all of them and any number of goroutines.", "anchors": ["internal/stmt_action.go:CreateTableStmtAction.Cleanup", "internal/catalog.go:Catalog.AddNewTableSpec", "internal/catalog.go:Catalog.FindTable"]}
{"id": "C232", "title": "A prepared INSERT, UPDATE, DELETE or query behaves as executed directly", "statement": "For a prepared INSERT, UPDATE, DELETE or query and positional arguments, exactly as many as it has parameters: Exec or Query on the prepared statement makes the same call to SQLite with the same values, fails exactly when executing the text directly fails, reports the same number of rows, and does not crash the process.", "quantifier": "every such statement, every list of positional arguments of the right length, every answer of SQLite", "why_tests_cant": "Tests prepare a few statements with a few arguments; the claim ranges over every statement, argument list and answer of the database", "anchors": ["internal/stmt.go:DMLStmt.Exec", "internal/stmt.go:QueryStmt.Query", "internal/stmt_action.go:DMLStmtAction.Prepare"]}
{"id": "C233", "title": "A prepared CREATE TABLE or CREATE VIEW can be executed", "statement": "Exec on a prepared CREATE TABLE or CREATE VIEW creates the table or view; preparing alone changes nothing.", "quantifier": "every CREATE TABLE or CREATE VIEW, every answer of SQLite", "why_tests_cant": "Tests prepare a few statements with a few arguments; the claim ranges over every statement, argument list and answer of the database", "anchors": ["internal/stmt.go:CreateTableStmt.Exec", "internal/stmt_action.go:CreateTableStmtAction.Prepare"]}
{"id": "C234", "title": "Prepared DROP, TRUNCATE, MERGE, BEGIN and COMMIT can be executed", "statement": "Exec on a prepared DROP, TRUNCATE, MERGE, BEGIN TRANSACTION or COMMIT TRANSACTION does what executing its text does.", "quantifier": "every such statement", "why_tests_cant": "Tests prepare a few statements with a few arguments; the claim ranges over every statement, argument list and answer of the database", "anchors": ["internal/stmt_action.go:DropStmtAction.Prepare", "internal/stmt_action.go:TruncateStmtAction.Prepare", "internal/stmt_action.go:MergeStmtAction.Prepare"]}
{"id": "C235", "title": "Named arguments of prepared statements", "statement": "A prepared statement with named parameters accepts sql.Named arguments, as the text executed directly does.", "quantifier": "every statement and every argument list with a named argument", "why_tests_cant": "Tests prepare a few statements with a few arguments; the claim ranges over every statement, argument list and answer of the database", "anchors": ["internal/stmt.go", "driver.go:ZetaSQLiteConn.PrepareContext"]}
{"id": "C236", "title": "Preparing a script", "statement": "Executing a prepared script of several statements does what executing its text does; a script of one statement is prepared as the statement.", "quantifier": "every script", "why_tests_cant": "Tests prepare a few statements with a few arguments; the claim ranges over every statement, argument list and answer of the database", "anchors": ["driver.go:ZetaSQLiteConn.PrepareContext"]}
{"id": "C237", "title": "A prepared CREATE FUNCTION", "statement": "Executing a prepared CREATE FUNCTION registers the function as executing its text does (a temporary one only for the call), and RowsAffected of the result can be asked.", "quantifier": "every CREATE FUNCTION and every answer of the catalog", "why_tests_cant": "Tests prepare a few statements with a few arguments; the claim ranges over every statement, argument list and answer of the database", "anchors": ["internal/stmt.go:CreateFunctionStmt.Exec"]}
{"id": "C238", "title": "RowsAffected is the number of changed rows", "statement": "RowsAffected of a successful Exec is the number of rows that SQLite changed in the last statement.", "quantifier": "every script that ends in INSERT, UPDATE, DELETE, TRUNCATE or MERGE", "why_tests_cant": "Tests prepare a few statements with a few arguments; the claim ranges over every statement, argument list and answer of the database", "anchors": ["internal/result.go:Result.RowsAffected", "internal/stmt_action.go:DMLStmtAction.ExecContext"]}
{"id": "C239", "title": "Exec succeeds only if everything was done, and otherwise says why", "statement": "If Exec of a script succeeds then every statement made all of its calls to SQLite and the catalog, in order, followed by the removal of all temporary objects, and nothing else. If it fails, the text of the error contains that of a failed call or of the arguments' error, and of every failed removal. It does not crash the process if the arguments can be read.", "quantifier": "every script, argument list, and every pattern of failing calls", "why_tests_cant": "A test can make one call fail in one script; the claim is about every script and every combination of failures", "anchors": ["driver.go:ZetaSQLiteConn.ExecContext", "internal/error.go:ErrorGroup"]}
{"id": "C240", "title": "errors.Is and errors.As find the cause", "statement": "errors.Is and errors.As on an error of Exec or Query find the error of SQLite, the catalog or the context that caused it.", "quantifier": "every script and every failing call", "why_tests_cant": "Tests prepare a few statements with a few arguments; the claim ranges over every statement, argument list and answer of the database", "anchors": ["internal/error.go:ErrorGroup", "driver.go:ZetaSQLiteConn.ExecContext"]}
{"id": "C241", "title": "BEGIN TRANSACTION ... COMMIT TRANSACTION in a script is atomic", "statement": "If a statement between BEGIN TRANSACTION and COMMIT TRANSACTION of a script fails, the statements before it leave no effect.", "quantifier": "every script", "why_tests_cant": "Tests prepare a few statements with a few arguments; the claim ranges over every statement, argument list and answer of the database", "anchors": ["internal/stmt_action.go:BeginStmtAction", "internal/stmt_action.go:CommitStmtAction"]}
{"id": "C242", "title": "Explain mode only explains", "statement": "In explain mode a query is explained instead of run, and the process does not crash.", "quantifier": "every query and script", "why_tests_cant": "Tests prepare a few statements with a few arguments; the claim ranges over every statement, argument list and answer of the database", "anchors": ["internal/stmt_action.go:QueryStmtAction.QueryContext", "internal/rows.go:Rows.Close"]}
{"id": "C243", "title": "Auto index mode works for every table", "statement": "With auto index mode on, CREATE TABLE succeeds whenever it does with auto index mode off.", "quantifier": "every table path and column name without backticks", "why_tests_cant": "Tests use tables with plain names", "anchors": ["internal/stmt_action.go:CreateTableStmtAction.createIndexAutomatically"]}
{"id": "C244", "title": "ChangedCatalogFromRows works on the rows of every query", "statement": "ChangedCatalogFromRows on the rows of a successful query does not crash the process.", "quantifier": "every query, direct or prepared", "why_tests_cant": "Tests prepare a few statements with a few arguments; the claim ranges over every statement, argument list and answer of the database", "anchors": ["catalog.go:ChangedCatalogFromRows", "internal/rows.go:Rows.ChangedCatalog"]}
{"id": "C245", "title": "LEFT JOIN UNNEST keeps rows with empty arrays", "statement": "A row of t whose array is empty or NULL appears once, with NULL for the element, in SELECT ... FROM t LEFT JOIN UNNEST(t.a) AS x.", "quantifier": "all tables whose arrays are all empty", "why_tests_cant": "All contents of the table: a test with non-empty arrays passes.", "anchors": ["internal/formatter.go:ArrayScanNode.FormatSQL"]}
{"id": "C246", "title": "A DELETE condition with UNNEST reads the table's columns whatever they are called", "statement": "In DELETE FROM t WHERE EXISTS (SELECT 1 FROM UNNEST(...) AS x WHERE x = t.c), and likewise in UPDATE, t.c is the column of the table, also when c is value, key or another name that json_each uses.", "quantifier": "all tables with a column called value", "why_tests_cant": "All column names: only those shared with json_each are misread.", "anchors": ["internal/formatter.go:ArrayScanNode.FormatSQL", "internal/formatter.go:DeleteStmtNode", "internal/formatter.go:UpdateStmtNode"]}
{"id": "C247", "title": "INSERT ... VALUES stores each value in its column", "statement": "INSERT INTO t (columns) VALUES (...), ... computes each value as the expression means and stores it in the column it is listed for, NULL in the columns that are not listed. It fails, changing nothing, exactly when the table with the new rows would violate NOT NULL or PRIMARY KEY.", "quantifier": "all table definitions without AS, all states of the table that satisfy its constraints, all lists of columns and all rows of expressions without subqueries", "why_tests_cant": "Tests insert a few rows into a few tables; the claim is about all definitions, rows and expressions.", "anchors": ["internal/formatter.go:InsertStmtNode.FormatSQL", "internal/spec.go:TableSpec.SQLiteSchema"]}
{"id": "C248", "title": "INSERT ... SELECT stores the rows of the query", "statement": "INSERT INTO t (columns) SELECT ... stores the rows of the query, its columns by position, also when the query reads t. It fails, changing nothing, exactly when the table with the new rows would violate NOT NULL or PRIMARY KEY.", "quantifier": "all table definitions without AS, all states, all queries in the shapes of C137 whose outermost scan is a SELECT", "why_tests_cant": "Tests insert a few rows into a few tables; the claim is about all definitions, rows and expressions.", "anchors": ["internal/formatter.go:InsertStmtNode.FormatSQL"]}
{"id": "C249", "title": "NOT NULL and PRIMARY KEY hold after every history", "statement": "After any sequence of INSERT, UPDATE and DELETE statements, successful or failing, a table created without AS has no NULL in a NOT NULL column and no two rows with the same key.", "quantifier": "all definitions, all sequences of statements of any length, all functions and other tables, which may change between statements", "why_tests_cant": "Tests run a few statements; the claim is an invariant of all histories.", "anchors": ["internal/spec.go:TableSpec.SQLiteSchema", "internal/spec.go:ColumnSpec.SQLiteSchema", "internal/formatter.go:UpdateStmtNode.FormatSQL"]}
{"id": "C250", "title": "CREATE TABLE (columns) AS SELECT keeps NOT NULL and PRIMARY KEY", "statement": "A table created with CREATE TABLE t (columns, PRIMARY KEY (...)) AS SELECT ... has the constraints that are written.", "quantifier": "all definitions and queries", "why_tests_cant": "Tests insert a few rows into a few tables; the claim is about all definitions, rows and expressions.", "anchors": ["internal/spec.go:TableSpec.SQLiteSchema"]}
{"id": "C251", "title": "UPDATE fails only if its result violates a constraint", "statement": "UPDATE gives each row its new values and fails, changing nothing, exactly when the table with the new values would violate NOT NULL or PRIMARY KEY.", "quantifier": "all tables, all UPDATE statements without FROM", "why_tests_cant": "Tests insert a few rows into a few tables; the claim is about all definitions, rows and expressions.", "anchors": ["internal/formatter.go:UpdateStmtNode.FormatSQL", "internal/formatter.go:UpdateItemNode.FormatSQL"]}
{"id": "C252", "title": "A key column may have any name", "statement": "A table whose key columns are columns of the table can be created whatever their names are.", "quantifier": "all definitions", "why_tests_cant": "Tests use a handful of names.", "anchors": ["internal/spec.go:TableSpec.SQLiteSchema"]}
{"id": "C253", "title": "DEFAULT is the default value", "statement": "In INSERT ... VALUES and UPDATE ... SET, DEFAULT stands for the default value of the column, NULL when it has none.", "quantifier": "all statements with DEFAULT at any place", "why_tests_cant": "Tests insert a few rows into a few tables; the claim is about all definitions, rows and expressions.", "anchors": ["internal/formatter.go:DMLDefaultNode.FormatSQL", "internal/formatter.go:DMLValueNode.FormatSQL"]}
{"id": "C254", "title": "INSERT OR IGNORE, OR REPLACE and OR UPDATE do not fail on an existing key", "statement": "With OR IGNORE, OR REPLACE or OR UPDATE an INSERT whose key exists skips or changes the row instead of failing.", "quantifier": "all tables and rows", "why_tests_cant": "Tests insert a few rows into a few tables; the claim is about all definitions, rows and expressions.", "anchors": ["internal/formatter.go:InsertStmtNode.FormatSQL"]}
{"id": "C255", "title": "ASSERT_ROWS_MODIFIED is checked", "statement": "A statement with ASSERT_ROWS_MODIFIED n fails unless it changes n rows.", "quantifier": "all statements and n", "why_tests_cant": "Tests insert a few rows into a few tables; the claim is about all definitions, rows and expressions.", "anchors": ["internal/formatter.go:InsertStmtNode.FormatSQL", "internal/formatter.go:UpdateStmtNode.FormatSQL"]}
{"id": "C256", "title": "A column STRING(L) takes no longer texts", "statement": "A value longer than the length in the type of its column is refused.", "quantifier": "all tables, lengths and texts", "why_tests_cant": "Tests insert a few rows into a few tables; the claim is about all definitions, rows and expressions.", "anchors": ["internal/spec.go:newColumnsFromDef"]}
{"id": "C257", "title": "The type of a column does not change what is stored", "statement": "A value written to a column of its type is read back as the same Go value: neither the conversions SQLite makes for the declared type of the column nor those of the driver touch it.", "quantifier": "all column types and all values of the type, however long", "why_tests_cant": "Tests store a few values per type; SQLite converts texts that look like numbers, so the claim depends on every value's encoding.", "anchors": ["internal/spec.go:ColumnSpec.SQLiteSchema", "internal/encoder.go:EncodeValue"]}
{"id": "C258", "title": "SUM over a frame is the exact sum", "statement": "SUM(x) OVER (... ROWS BETWEEN ...) of INT64 or NUMERIC is the exact sum of the non-NULL values of the frame, NULL if there is none.", "quantifier": "all tables of the common key types, all ROWS frames that contain the current row, all rows; INT64 totals in range", "why_tests_cant": "A frame slides over every row of every table; tests fix a few tables and frames.", "anchors": ["internal/function_window.go:WINDOW_SUM"]}
{"id": "C259", "title": "SUM over a frame does not silently overflow", "statement": "When the INT64 sum over a frame is out of the range of INT64 the query fails.", "quantifier": "all tables, all ROWS frames that contain the current row, all totals out of range", "why_tests_cant": "Overflow depends on all values of the frame together.", "anchors": ["internal/function_window.go:WINDOW_SUM", "internal/value.go:IntValue.Add"]}
{"id": "C260", "title": "MIN and MAX over a frame", "statement": "MIN(x) OVER and MAX(x) OVER are a value of the frame with none before, respectively after it, NULL if every value is NULL.", "quantifier": "all tables, all ROWS frames that contain the current row, all columns of one orderable type", "why_tests_cant": "A frame slides over every row of every table; tests fix a few tables and frames.", "anchors": ["internal/function_window.go:WINDOW_MIN", "internal/function_window.go:WINDOW_MAX"]}
{"id": "C261", "title": "COUNTIF over a frame", "statement": "COUNTIF(b) OVER is the number of rows of the frame where b is TRUE.", "quantifier": "all tables, all ROWS frames that contain the current row, all BOOL columns with NULLs", "why_tests_cant": "A frame slides over every row of every table; tests fix a few tables and frames.", "anchors": ["internal/function_window.go:WINDOW_COUNTIF"]}
{"id": "C262", "title": "STRING_AGG over a frame", "statement": "STRING_AGG(s, d) OVER is the non-NULL strings of the frame in order with d between them, NULL if there is none.", "quantifier": "all tables, all ROWS frames that contain the current row, all delimiters", "why_tests_cant": "A frame slides over every row of every table; tests fix a few tables and frames.", "anchors": ["internal/function_window.go:WINDOW_STRING_AGG", "internal/function_bind.go:bindWindowStringAgg"]}
{"id": "C263", "title": "DISTINCT over a frame", "statement": "COUNT, SUM and ARRAY_AGG with DISTINCT OVER use each value of the frame once.", "quantifier": "all tables, all ROWS frames that contain the current row, all values that have different texts", "why_tests_cant": "A frame slides over every row of every table; tests fix a few tables and frames.", "anchors": ["internal/function_window.go:WINDOW_COUNT", "internal/function_window.go:WINDOW_SUM", "internal/function_window.go:WINDOW_ARRAY_AGG"]}
{"id": "C264", "title": "AVG(DISTINCT) over a frame", "statement": "AVG(DISTINCT x) OVER is the sum of the different values of the frame over how many there are.", "quantifier": "all tables, all ROWS frames that contain the current row, all FLOAT64 values", "why_tests_cant": "A frame slides over every row of every table; tests fix a few tables and frames.", "anchors": ["internal/function_window.go:WINDOW_AVG"]}
{"id": "C265", "title": "An aggregate over the whole partition is the aggregate of the group", "statement": "COUNT, SUM, MIN and MAX over the whole partition give every row what the aggregate function gives for the group of the rows of its partition.", "quantifier": "all tables of the common key types, all rows, the rows of the partition in any order", "why_tests_cant": "It relates two implementations on every table.", "anchors": ["internal/function_window.go:WINDOW_SUM", "internal/function_window.go:WINDOW_COUNT", "internal/function_window.go:WINDOW_MAX", "internal/function_window.go:WINDOW_MIN", "internal/function_aggregate.go:SUM"]}
{"id": "C266", "title": "PERCENTILE_DISC is an order statistic", "statement": "PERCENTILE_DISC(x, f) OVER is the smallest value of the partition at or below which lies at least the share f of the values.", "quantifier": "all tables of the common key types, all partitions, all percentiles between 0 and 1", "why_tests_cant": "It depends on the order of all values and on float rounding.", "anchors": ["internal/function_window.go:WINDOW_PERCENTILE_DISC"]}
{"id": "C267", "title": "Percentiles of a partition without values", "statement": "PERCENTILE_CONT and PERCENTILE_DISC over a partition where every value is NULL are NULL.", "quantifier": "all tables with such a partition, all percentiles between 0 and 1", "why_tests_cant": "The partition is one among any number of others.", "anchors": ["internal/function_window.go:WINDOW_PERCENTILE_DISC", "internal/function_window.go:WINDOW_PERCENTILE_CONT"]}
{"id": "C268", "title": "PERCENTILE_CONT interpolates the values", "statement": "PERCENTILE_CONT(x, f) OVER is the value at row 1 + f (n - 1) of the sorted values, interpolated; so the least value for f = 0 and the value itself for one row.", "quantifier": "all tables of the common key types, all partitions", "why_tests_cant": "It depends on the order and the sign of all values.", "anchors": ["internal/function_window.go:WINDOW_PERCENTILE_CONT"]}
{"id": "C269", "title": "The code of a JavaScript function reaches the engine unchanged", "statement": "CREATE FUNCTION ... LANGUAGE js AS code: every call hands the engine exactly the code, the return type and the parameter names of the definition, whatever characters the code holds (quotes, @name, comments, newlines) and whatever the arguments are.", "quantifier": "every code text, return type, list of parameter names and list of argument texts", "why_tests_cant": "the generated SQL is built by pasting and replacing text; a test tries a few codes, not all texts", "anchors": ["internal/spec.go:newFunctionSpec", "internal/spec.go:FunctionSpec.CallSQL"]}
{"id": "C270", "title": "The arguments of a JavaScript function arrive in order", "statement": "A call f(e1, ..., en) of a JavaScript function evaluates each ei once and binds it to the i-th parameter, whatever the parameters are called.", "quantifier": "every list of parameter names and argument texts", "why_tests_cant": "depends on how names overlap; tests use names that do not", "anchors": ["internal/spec.go:newFunctionSpec", "internal/spec.go:FunctionSpec.CallSQL"]}
{"id": "C271", "title": "A JavaScript function that returns its argument gives it back", "statement": "For f(x T) RETURNS T LANGUAGE js AS 'return x', f(v) = v for every v of INT64, FLOAT64, BOOL, STRING, DATE, DATETIME, NUMERIC and TIMESTAMP.", "quantifier": "every type of the list and every value of it, for every engine that follows ECMAScript", "why_tests_cant": "the values are unbounded; tests use small ones", "anchors": ["internal/function_javascript.go:EVAL_JAVASCRIPT", "internal/function_javascript.go:castJavaScriptValue"]}
{"id": "C272", "title": "A JavaScript function that returns null returns NULL", "statement": "A JavaScript function that returns null or undefined returns NULL, for every return type.", "quantifier": "every code, return type, argument list and engine", "why_tests_cant": "must hold for every type and code", "anchors": ["internal/function_javascript.go:EVAL_JAVASCRIPT", "internal/function_javascript.go:castJavaScriptValue"]}
{"id": "C273", "title": "Arrays and objects returned by JavaScript are converted by element and by name", "statement": "An array becomes the ARRAY of its elements in order, an object the STRUCT whose fields are the properties of their names (missing: NULL, others: ignored), null inside them is NULL; to any depth. (Objects with at least one named property; the outermost value of an ARRAY function is an array.)", "quantifier": "every type made of INT64, FLOAT64, BOOL, STRING, ARRAY and STRUCT, and every document, of any size and depth", "why_tests_cant": "documents of any depth", "anchors": ["internal/function_javascript.go:EVAL_JAVASCRIPT", "internal/function_javascript.go:castJavaScriptValue", "internal/encoder.go:CastValue", "internal/encoder.go:valueFromGoReflectValue"]}
{"id": "C274", "title": "The order of the properties of a returned object does not matter", "statement": "A STRUCT function gives the same result for objects that differ in the order of their properties only; in particular the result does not depend on the order in which Go iterates over a map.", "quantifier": "every struct type and every pair of orders of the properties, with any values", "why_tests_cant": "Go's map order is random; a test sees a few orders", "anchors": ["internal/function_javascript.go:EVAL_JAVASCRIPT", "internal/function_javascript.go:castJavaScriptValue", "internal/encoder.go:valueFromGoReflectValue"]}
{"id": "C275", "title": "A JavaScript function does not crash the process", "statement": "Whatever a JavaScript function returns, the query ends with a result or an error.", "quantifier": "every code, return type, argument list and engine", "why_tests_cant": "must hold for every returned value", "anchors": ["internal/function_javascript.go:EVAL_JAVASCRIPT", "internal/function_javascript.go:castJavaScriptValue"]}
{"id": "C276", "title": "The code of a JavaScript function may end in a comment", "statement": "If the braces of the code match, so do those of the program that is run, also when the code ends in a // comment.", "quantifier": "every code without literals, and every comment", "why_tests_cant": "tests end their code in a newline or without a comment", "anchors": ["internal/function_javascript.go:EVAL_JAVASCRIPT"]}
{"id": "C277", "title": "JavaScript functions returning dates and times accept exactly the texts of one", "statement": "A DATE, DATETIME or TIME function succeeds exactly when the text of what it returns names an existing day, date and time or time of day, and then returns that.", "quantifier": "every returned value and engine", "why_tests_cant": "every text", "anchors": ["internal/function_javascript.go:EVAL_JAVASCRIPT", "internal/function_javascript.go:castJavaScriptValue"]}
{"id": "C278", "title": "A NUMERIC JavaScript function fails when it returns no number", "statement": "A NUMERIC function that returns something that is not a number fails.", "quantifier": "every returned value and engine", "why_tests_cant": "every value", "anchors": ["internal/function_javascript.go:EVAL_JAVASCRIPT", "internal/function_javascript.go:castJavaScriptValue"]}
{"id": "C279", "title": "An object without properties is a STRUCT of NULLs", "statement": "A STRUCT function that returns {} gives a STRUCT with all the fields of its type, each NULL.", "quantifier": "every struct type and engine", "why_tests_cant": "every type", "anchors": ["internal/function_javascript.go:EVAL_JAVASCRIPT", "internal/function_javascript.go:castJavaScriptValue", "internal/encoder.go:CastValue"]}
{"id": "C280", "title": "GENERATE_TIMESTAMP_ARRAY is the arithmetic series", "statement": "GENERATE_TIMESTAMP_ARRAY(a, b, INTERVAL s part) is a, a + s parts, a + 2s parts, ... as far as b, whichever of a and b is later, and empty if the first element would already be beyond b.", "quantifier": "all timestamps a and b, all INT64 steps other than 0 and all six parts", "why_tests_cant": "The step is a product of 64-bit integers, so it can wrap; no list of examples covers every range and step.", "anchors": ["internal/function_array.go:GENERATE_TIMESTAMP_ARRAY", "internal/value.go:TimestampValue.AddValueWithPart"]}
{"id": "C281", "title": "GENERATE_TIMESTAMP_ARRAY returns", "statement": "Every call of GENERATE_TIMESTAMP_ARRAY returns after finitely many steps.", "quantifier": "all timestamps, steps and parts", "why_tests_cant": "A test that hangs shows one input; that no input hangs needs a proof of termination.", "anchors": ["internal/function_array.go:GENERATE_TIMESTAMP_ARRAY"]}
{"id": "C282", "title": "GENERATE_TIMESTAMP_ARRAY of NULL, and with step 0", "statement": "GENERATE_TIMESTAMP_ARRAY with a NULL argument is NULL, and with a step of 0 an error.", "quantifier": "all arguments, parts and positions of the NULL", "why_tests_cant": "Each position of a NULL takes another path, for every value of the others.", "anchors": ["internal/function_array.go:GENERATE_TIMESTAMP_ARRAY", "internal/function_bind.go:bindGenerateTimestampArray"]}
{"id": "C283", "title": "EXTRACT reads the parts of an INTERVAL", "statement": "EXTRACT(part FROM i) of an interval i is the part of i in its Y-M D H:M:S.F form, with its sign, for YEAR, MONTH, DAY, HOUR, MINUTE, SECOND, MILLISECOND and MICROSECOND, and an error for any other part.", "quantifier": "all intervals in canonical form and all parts", "why_tests_cant": "The parts have to agree with the length of the interval for every combination of fields and signs.", "anchors": ["internal/function.go:EXTRACT"]}
{"id": "C284", "title": "A query over WITH entries returns what it means", "statement": "A SELECT with WITH, whose entries and main query are built in any nesting from tables, references to earlier entries, joins, filters, projections, ORDER BY, LIMIT, GROUP BY, set operations, UNNEST and correlated subqueries, is accepted and returns the rows of the query with the entry's subquery in place of each reference, however often an entry is used. Entry names are plain identifiers, no two equal without regard to case, and no table of the statement is named like an entry.", "quantifier": "all entries, main queries, numbers of references, databases, names of columns, and functions called", "why_tests_cant": "The trees, the number of entries and of uses, and the data are unbounded.", "anchors": ["internal/formatter.go:WithScanNode.FormatSQL", "internal/formatter.go:WithEntryNode.FormatSQL", "internal/formatter.go:WithRefScanNode.FormatSQL"]}
{"id": "C285", "title": "Statistics ignore NULL", "statement": "STDDEV_POP, STDDEV_SAMP, VAR_POP, VAR_SAMP, CORR, COVAR_POP and COVAR_SAMP are computed from the rows without a NULL argument, in order and each once; without such a row the result is NULL.", "quantifier": "every list of rows with INT64, FLOAT64 or NULL arguments, and every function of the statistics library", "why_tests_cant": "Which rows of a group have NULLs, in one argument or both, is unbounded.", "anchors": ["internal/function_aggregate.go:CORR", "internal/function_aggregate.go:STDDEV_POP", "internal/function_aggregate.go:VAR_SAMP", "internal/function_bind.go:bindCorr"]}
{"id": "C286", "title": "Sample statistics of fewer than two rows are NULL", "statement": "STDDEV_SAMP, VAR_SAMP, CORR and COVAR_SAMP return NULL when fewer than two rows have no NULL argument.", "quantifier": "every list of rows and every function of the statistics library", "why_tests_cant": "A test tries one value; the claim is about every value and library.", "anchors": ["internal/function_aggregate.go:STDDEV_SAMP.Done", "internal/function_aggregate.go:VAR_SAMP.Done", "internal/function_aggregate.go:CORR.Done", "internal/function_aggregate.go:COVAR_SAMP.Done"]}
{"id": "C287", "title": "COVAR_POP is the population covariance", "statement": "COVAR_SAMP divides the sum of the products of deviations by the number of rows less one, COVAR_POP by the number of rows.", "quantifier": "every list of two or more INT64 pairs and every covariance function of the library", "why_tests_cant": "Whether some library function could make both right is a statement about all functions.", "anchors": ["internal/function_aggregate.go:COVAR_POP.Done", "internal/function_aggregate.go:COVAR_SAMP.Done"]}
{"id": "C288", "title": "DISTINCT compares all arguments", "statement": "An aggregate of two arguments with DISTINCT is computed from the distinct pairs.", "quantifier": "every list of pairs", "why_tests_cant": "Which pairs share a first value is unbounded.", "anchors": ["internal/function_bind.go:Aggregator.Step", "internal/function_aggregate.go:CORR.Step"]}
{"id": "C289", "title": "APPROX_COUNT_DISTINCT counts the distinct values", "statement": "APPROX_COUNT_DISTINCT returns exactly the number of distinct values that are not NULL, 0 without any.", "quantifier": "every list of INT64 or STRING values and NULLs, and of values of other types whose texts differ when they do", "why_tests_cant": "Multiplicities and orders of rows are unbounded.", "anchors": ["internal/function_aggregate.go:APPROX_COUNT_DISTINCT"]}
{"id": "C290", "title": "APPROX_QUANTILES begins with the least and ends with the greatest value", "statement": "APPROX_QUANTILES(x, n) ignores NULLs; its first element is the least value and its last the greatest, whatever the order of the rows.", "quantifier": "every list of rows and every n", "why_tests_cant": "Orders of rows are unbounded.", "anchors": ["internal/function_aggregate.go:APPROX_QUANTILES.Done"]}
{"id": "C291", "title": "APPROX_QUANTILES has n + 1 elements", "statement": "APPROX_QUANTILES(x, n) returns n + 1 elements for a group with a value.", "quantifier": "every list of rows and every n", "why_tests_cant": "It depends on accumulated rounding, for every n, and on no data.", "anchors": ["internal/function_aggregate.go:APPROX_QUANTILES.Done"]}
{"id": "C292", "title": "APPROX_TOP_COUNT returns the most frequent values", "statement": "APPROX_TOP_COUNT(x, n) with n at most the number of distinct values returns n of them, each once with the number of rows that have it, most frequent first, NULL counting as a value; no value left out is more frequent than one returned; among equally frequent values every choice and order is possible.", "quantifier": "every list of INT64, STRING, BOOL, DATE, DATETIME, TIME or TIMESTAMP values and NULLs, every n, every order of the map and every outcome of the sort", "why_tests_cant": "The order of a Go map and of an unstable sort differ from run to run.", "anchors": ["internal/function_aggregate.go:APPROX_TOP_COUNT", "internal/function_bind.go:bindApproxTopCount"]}
{"id": "C293", "title": "APPROX_TOP_SUM returns the heaviest values", "statement": "APPROX_TOP_SUM(x, w, n) with n at most the number of distinct values returns n of them, each once with the sum of its weights that are not NULL, or NULL without any, heaviest first and NULL last; no value left out is heavier than one returned.", "quantifier": "every list of rows with INT64 weights whose sums do not overflow, values as in C292, every n, every order of the map and outcome of the sort", "why_tests_cant": "The order of a Go map and of an unstable sort differ from run to run.", "anchors": ["internal/function_aggregate.go:APPROX_TOP_SUM", "internal/function_bind.go:bindApproxTopSum"]}
{"id": "C294", "title": "APPROX_TOP_COUNT works for every groupable type and number", "statement": "APPROX_TOP_COUNT(x, n) returns all values when there are fewer than n, and counts equal NUMERIC and equal BYTES values together.", "quantifier": "every list of values and every n", "why_tests_cant": "Values and counts are unbounded.", "anchors": ["internal/function_aggregate.go:APPROX_TOP_COUNT.Step", "internal/function_aggregate.go:APPROX_TOP_COUNT.Done", "internal/value.go:NumericValue", "internal/value.go:BytesValue"]}
{"id": "C295", "title": "Merging sketches counts all rows", "statement": "HLL_COUNT.MERGE over the sketches of groups of rows returns what HLL_COUNT.EXTRACT returns for the sketch of all the rows, and HLL_COUNT.MERGE_PARTIAL returns that sketch; NULL sketches are skipped and without a sketch the count is 0.", "quantifier": "every partition of every list of rows into groups, and every sketch library whose sketches survive being stored and whose union agrees with adding hashes", "why_tests_cant": "Partitions and rows are unbounded.", "anchors": ["internal/function_aggregate.go:HLL_COUNT_INIT", "internal/function_aggregate.go:HLL_COUNT_MERGE", "internal/function_aggregate.go:HLL_COUNT_MERGE_PARTIAL", "internal/function_aggregate.go:HLL_COUNT_EXTRACT"]}
{"id": "C296", "title": "HLL_COUNT.INIT ignores NULL and refuses bad precisions", "statement": "HLL_COUNT.INIT(x, p) returns the sketch of the values that are not NULL, NULL without any, and an error for a precision the library refuses.", "quantifier": "every list of rows, every precision and every sketch library", "why_tests_cant": "Values, precisions and libraries are unbounded.", "anchors": ["internal/function_aggregate.go:HLL_COUNT_INIT.Step", "internal/function_bind.go:bindHllCountInit"]}
{"id": "C297", "title": "A math function of NULL is NULL", "statement": "ABS, SIGN, IS_INF, IS_NAN, IEEE_DIVIDE, SQRT, POW, EXP, LN, LOG, LOG10, the SAFE_ functions, TRUNC, CEIL, FLOOR, the trigonometric functions and the operators + - * / return NULL when any argument is NULL, and so does ROUND when its first argument is. With no NULL argument the only NULL result among them is SAFE_DIVIDE's, for a divisor of zero.", "quantifier": "every function of the list, every list of FLOAT64 or NULL arguments of a length it takes, every mathematical library", "why_tests_cant": "Thirty-eight functions with every combination of NULL and values.", "anchors": ["function_bind.go:existsNull", "function_bind.go:bindRound", "function_math.go:SAFE_DIVIDE"]}
{"id": "C298", "title": "ROUND with a NULL precision is NULL", "statement": "ROUND(x, NULL) is NULL for every x.", "quantifier": "every first argument, NULL or not", "why_tests_cant": "No test passes a NULL precision.", "anchors": ["function_bind.go:bindRound"]}
{"id": "C299", "title": "LOG takes its base into account", "statement": "LOG(x) is the natural logarithm LN(x), and LOG(x, y) is the logarithm of x to the base y.", "quantifier": "every pair of numbers", "why_tests_cant": "The claim is about every float64, and the tests use a handful.", "anchors": ["function_math.go:LOG", "function_bind.go:bindLog"]}
{"id": "C300", "title": "TRUNC cuts off digits", "statement": "TRUNC(x) is x rounded toward zero to an integer, and TRUNC(x, n) is x rounded toward zero to n digits after the decimal point.", "quantifier": "every finite FLOAT64 and every n", "why_tests_cant": "The claim is about every float64, and the tests use a handful.", "anchors": ["function_math.go:TRUNC", "function_bind.go:bindTrunc"]}
{"id": "C301", "title": "FLOOR and CEIL of FLOAT64 are exact", "statement": "For every finite FLOAT64 x, FLOOR(x) is the greatest integer not above x, and CEIL(x) and CEILING(x) are the least integer not below x, exactly and without an error. An infinity or NaN is returned unchanged.", "quantifier": "every FLOAT64", "why_tests_cant": "The claim is about every float64, and the tests use a handful.", "anchors": ["function_math.go:FLOOR", "function_math.go:CEIL", "function_bind.go:bindCeil"]}
{"id": "C302", "title": "SIGN is the sign of the number", "statement": "SIGN(x) is -1, 0 or 1 as x is negative, zero or positive, for every FLOAT64 x other than NaN. SIGN of NaN is NaN.", "quantifier": "every FLOAT64, either zero included", "why_tests_cant": "The claim is about every float64, and the tests use a handful.", "anchors": ["function_math.go:SIGN"]}
{"id": "C303", "title": "IEEE_DIVIDE is division by IEEE 754", "statement": "IEEE_DIVIDE(x, y) denotes the same number as the IEEE 754 quotient of x and y, for every pair of FLOAT64 values, zeros of either sign, infinities and NaN included.", "quantifier": "every pair of FLOAT64 values", "why_tests_cant": "The claim is about every float64, and the tests use a handful.", "anchors": ["function_math.go:IEEE_DIVIDE"]}
{"id": "C304", "title": "ABS, SAFE_NEGATE, IS_INF and IS_NAN of FLOAT64 are exact", "statement": "ABS(x) is the absolute value and SAFE_NEGATE(x) the negation of x. IS_INF(x) is TRUE exactly when x is further from zero than every finite FLOAT64. IS_NAN(x) is TRUE exactly when x = x is FALSE.", "quantifier": "every FLOAT64", "why_tests_cant": "The claim is about every float64, and the tests use a handful.", "anchors": ["function_math.go:ABS", "function_math.go:SAFE_NEGATE", "function_math.go:IS_INF", "function_math.go:IS_NAN"]}
{"id": "C305", "title": "FLOAT64 overflow is reported", "statement": "x + y, x - y and x * y of finite FLOAT64 values whose result does not fit a FLOAT64 are an error, and SAFE_ADD, SAFE_SUBTRACT and SAFE_MULTIPLY return NULL for them.", "quantifier": "every pair of finite FLOAT64 values", "why_tests_cant": "The claim is about every float64, and the tests use a handful.", "anchors": ["value.go:FloatValue.Add", "value.go:FloatValue.Mul", "function_math.go:SAFE_ADD", "function_math.go:SAFE_MULTIPLY"]}
{"id": "C306", "title": "Arguments outside a function's domain are an error", "statement": "SQRT, LN, LOG10, EXP, POW, ACOS, ASIN and the other mathematical functions return the value of the function they are named after, and an error for an argument outside its domain, such as SQRT of a negative number or LN of zero.", "quantifier": "every FLOAT64 argument, every mathematical library", "why_tests_cant": "The claim is about every float64, and the tests use a handful.", "anchors": ["function_math.go:SQRT", "function_math.go:LN", "function_math.go:POW", "function_math.go:ACOS"]}
{"id": "C307", "title": "A SAFE_ function is its operator with NULL for errors", "statement": "For FLOAT64 x and y, SAFE_ADD, SAFE_SUBTRACT, SAFE_MULTIPLY and SAFE_DIVIDE return what x + y, x - y, x * y and x / y return, and NULL exactly where the operator fails. x / y fails exactly when y is zero of either sign.", "quantifier": "every pair of FLOAT64 values", "why_tests_cant": "The claim is about every float64, and the tests use a handful.", "anchors": ["function_math.go:SAFE_DIVIDE", "function_math.go:SAFE_ADD", "value.go:FloatValue.Div"]}
{"id": "C308", "title": "NET.REG_DOMAIN is NET.PUBLIC_SUFFIX and one label", "statement": "Whenever NET.PUBLIC_SUFFIX(v) is a string s, NET.HOST(v) is a host name (in brackets for an IPv6 address) that ends in s, and NET.REG_DOMAIN(v) is one label, a point and s, again an end of the host name, or NULL when the host name is s itself. Where NET.PUBLIC_SUFFIX(v) is NULL or fails, so does NET.REG_DOMAIN(v).", "quantifier": "every text, every URL parser and public suffix list", "why_tests_cant": "The claim is about every text and every behaviour of the libraries underneath.", "anchors": ["function_net.go:NET_REG_DOMAIN", "function_net.go:NET_PUBLIC_SUFFIX", "function_net.go:publicSuffix"]}
{"id": "C309", "title": "NET.PUBLIC_SUFFIX is the end of the host name as written", "statement": "If the lower-cased, ASCII-encoded host name has a registry-managed public suffix of k labels, NET.PUBLIC_SUFFIX is the last k labels of the host name as they are written in the argument. A host name with two points in a row between other characters, or without a registry-managed suffix, gives NULL.", "quantifier": "every text, every URL parser, encoder and public suffix list", "why_tests_cant": "The claim is about every text and every behaviour of the libraries underneath.", "anchors": ["function_net.go:publicSuffix", "function_net.go:NET_PUBLIC_SUFFIX", "function_net.go:parseURL"]}
{"id": "C310", "title": "NET and PARSE_NUMERIC functions of NULL are NULL", "statement": "NET.HOST, NET.PUBLIC_SUFFIX, NET.REG_DOMAIN, NET.IP_NET_MASK, NET.IP_TRUNC, NET.IPV4_FROM_INT64, NET.IPV4_TO_INT64, PARSE_NUMERIC and PARSE_BIGNUMERIC return NULL when an argument is NULL.", "quantifier": "every function of the list and every other argument", "why_tests_cant": "No test passes NULL to most of them.", "anchors": ["function_bind.go:bindNetPublicSuffix", "function_bind.go:bindNetIpTrunc", "function_bind.go:bindParseNumeric", "function_bind.go:bindNetHost"]}
{"id": "C311", "title": "NET.HOST is the host of the URL", "statement": "NET.HOST(v) is the host name of the URL v, or of //v without surrounding space when v has no host, in brackets exactly when the host is written in brackets. It is NULL when there is no URL or no host name, and never an error.", "quantifier": "every text and every URL parser", "why_tests_cant": "The claim is about every text and every behaviour of the libraries underneath.", "anchors": ["function_net.go:NET_HOST", "function_net.go:parseURL"]}
{"id": "C312", "title": "Hashes of STRING and BYTES agree", "statement": "MD5, SHA1, SHA256, SHA512 and FARM_FINGERPRINT give the same for a STRING and for the BYTES of its UTF-8 encoding, and NULL for NULL. FARM_FINGERPRINT is the INT64 with the 64 bits of the unsigned fingerprint.", "quantifier": "every string of bytes and every hash function", "why_tests_cant": "The claim is about every text and every behaviour of the libraries underneath.", "anchors": ["function_hash.go:MD5", "function_hash.go:FARM_FINGERPRINT", "function_bind.go:bindFarmFingerprint"]}
{"id": "C313", "title": "PARSE_NUMERIC reads back printed numbers", "statement": "PARSE_NUMERIC and PARSE_BIGNUMERIC of the text CAST(x AS STRING) of a NUMERIC x of at most nine decimal digits give x back.", "quantifier": "every NUMERIC with at most nine digits after the point", "why_tests_cant": "There are infinitely many numbers.", "anchors": ["function_numeric.go:PARSE_NUMERIC", "function_numeric.go:PARSE_BIGNUMERIC"]}
{"id": "C314", "title": "PARSE_NUMERIC refuses what is no decimal number", "statement": "PARSE_NUMERIC(s) is an error unless s is a decimal number with optional sign, fraction and exponent.", "quantifier": "every text", "why_tests_cant": "The claim is about every text and every behaviour of the libraries underneath.", "anchors": ["function_numeric.go:PARSE_NUMERIC"]}
{"id": "C315", "title": "PARSE_NUMERIC keeps to the digits and range of NUMERIC", "statement": "PARSE_NUMERIC rounds to nine digits after the point and is an error for numbers of 10^29 and more.", "quantifier": "every decimal number", "why_tests_cant": "The claim is about every text and every behaviour of the libraries underneath.", "anchors": ["function_numeric.go:PARSE_NUMERIC"]}
{"id": "C316", "title": "JSON field access and subscript agree", "statement": "For a JSON value v and a name n, v.n and v['n'] are the same value, NULL or error. They are NULL when v or the name is NULL or the path finds nothing, and otherwise the JSON found first, which is JSON null and not NULL if the field is null; so is v[i] for an index.", "quantifier": "every JSON text, every name and index, every path library", "why_tests_cant": "The claim is about every text and every behaviour of the libraries underneath.", "anchors": ["function_json.go:JSON_FIELD", "function_json.go:JSON_SUBSCRIPT", "function_bind.go:bindJsonField"]}
{"id": "C317", "title": "UNICODE undoes CHR", "statement": "For every Unicode code point n, CHR(n) is the text of that one character ('' for 0) and UNICODE(CHR(n)) = n; UNICODE of any other text is its first character, of '' it is 0, and both functions of NULL are NULL.", "quantifier": "every code point and every well-formed text", "why_tests_cant": "There are over a million code points and unboundedly many texts.", "anchors": ["internal/function_string.go:CHR", "internal/function_string.go:UNICODE", "internal/function_bind.go:bindChr", "internal/function_bind.go:bindUnicode"]}
{"id": "C318", "title": "CHR refuses numbers that are no code points", "statement": "CHR(n) is an error for a negative n, a surrogate or an n above 1114111.", "quantifier": "every INT64", "why_tests_cant": "The numbers outside are 2^64 but a million.", "anchors": ["internal/function_string.go:CHR", "internal/function_bind.go:bindChr"]}
{"id": "C319", "title": "ASCII is about ASCII", "statement": "ASCII(s) is the code of the first character of s if that is below 128 and an error otherwise; 0 for '' and NULL for NULL.", "quantifier": "every well-formed text", "why_tests_cant": "Texts are unbounded.", "anchors": ["internal/function_string.go:ASCII", "internal/function_bind.go:bindAscii"]}
{"id": "C320", "title": "UPPER and LOWER change letters only", "statement": "UPPER and LOWER of a STRING or BYTES of ASCII characters change the letters a-z (A-Z) to their counterparts and leave every other character; any other STRING is mapped character by character; NULL gives NULL.", "quantifier": "every text and every table of letters", "why_tests_cant": "Texts are unbounded.", "anchors": ["internal/function_string.go:UPPER", "internal/function_string.go:LOWER", "internal/function_bind.go:bindUpper", "internal/function_bind.go:bindLower"]}
{"id": "C321", "title": "UPPER and LOWER of BYTES work on bytes", "statement": "UPPER and LOWER of BYTES change the ASCII letters and leave every byte of 128 or more as it is.", "quantifier": "every BYTES value and every table of letters", "why_tests_cant": "Byte sequences are unbounded.", "anchors": ["internal/function_string.go:UPPER", "internal/function_string.go:LOWER"]}
{"id": "C322", "title": "CONTAINS_SUBSTR finds texts", "statement": "CONTAINS_SUBSTR(v, s) is TRUE if s occurs in v regardless of case and FALSE otherwise.", "quantifier": "every value and every text searched for", "why_tests_cant": "Values and texts are unbounded.", "anchors": ["internal/function_string.go:CONTAINS_SUBSTR", "internal/function_bind.go:bindContainsSubstr"]}
{"id": "C323", "title": "COLLATE makes comparison ignore case", "statement": "COLLATE(v, 'und:ci') compares equal to COLLATE(w, 'und:ci') for texts v, w that differ in case only, the specifications binary, '' and unicode:cs are accepted, and NULL gives NULL.", "quantifier": "every pair of texts", "why_tests_cant": "Texts are unbounded.", "anchors": ["internal/function_string.go:COLLATE", "internal/function_bind.go:bindCollate"]}
{"id": "C324", "title": "NORMALIZE and NORMALIZE_AND_CASEFOLD", "statement": "NORMALIZE(s, mode) is the normal form named by the mode (NFC without one), unknown modes are errors and NULL gives NULL; NORMALIZE_AND_CASEFOLD gives the same for texts that are equal after case folding and normalization.", "quantifier": "every text, mode and library of normal forms", "why_tests_cant": "Texts are unbounded.", "anchors": ["internal/function_string.go:NORMALIZE", "internal/function_string.go:NORMALIZE_AND_CASEFOLD", "internal/function_bind.go:bindNormalize", "internal/function_bind.go:bindNormalizeAndCasefold"]}
{"id": "C325", "title": "ERROR never returns", "statement": "ERROR(message) makes the query fail whatever the message.", "quantifier": "every message, NULL included", "why_tests_cant": "Messages are unbounded.", "anchors": ["internal/function_bind.go:bindError"]}
{"id": "C326", "title": "A field of a constructed STRUCT is the value given", "statement": "STRUCT(e1 AS a1, ..., en AS an).ai is the value of ei, NULL included, also if several fields have the same name.", "quantifier": "every number of fields, every names and values, and every position", "why_tests_cant": "Fields and values are unbounded.", "anchors": ["internal/function.go:MAKE_STRUCT", "internal/function.go:STRUCT_FIELD", "internal/function_bind.go:bindMakeStruct", "internal/function_bind.go:bindStructField", "internal/formatter.go:MakeStructNode.FormatSQL", "internal/formatter.go:GetStructFieldNode.FormatSQL"]}
{"id": "C327", "title": "Functions of exact types are exact", "statement": "ABS and SAFE_NEGATE of an INT64 are exact; ABS, CEIL, FLOOR and TRUNC of a NUMERIC that is an integer are exact.", "quantifier": "every INT64 and every integer NUMERIC", "why_tests_cant": "The values are unbounded; the first counterexample is beyond 2^53.", "anchors": ["internal/function_math.go:ABS", "internal/function_math.go:SAFE_NEGATE", "internal/function_math.go:FLOOR", "internal/function_math.go:CEIL", "internal/function_math.go:TRUNC", "internal/value.go:NumericValue.ToFloat64"]}
{"id": "C328", "title": "FROM items that are not supported are errors", "statement": "A query with TABLESAMPLE, PIVOT or UNPIVOT in FROM either gives the rows it stands for or is an error; TABLESAMPLE gives some of the rows of the table.", "quantifier": "every table, percentage and select list", "why_tests_cant": "Tables and select lists are unbounded.", "anchors": ["internal/formatter.go:SampleScanNode.FormatSQL", "internal/formatter.go:PivotScanNode.FormatSQL", "internal/formatter.go:UnpivotScanNode.FormatSQL", "internal/analyzer.go:newAnalyzerOptions"]}
{"id": "C329", "title": "HAVING MAX and HAVING MIN choose the rows of an aggregate", "statement": "SUM(x HAVING MAX k) is the sum of x over the rows with the greatest k, and HAVING MIN likewise.", "quantifier": "every group of rows", "why_tests_cant": "Groups are unbounded.", "anchors": ["internal/formatter.go:AggregateFunctionCallNode.FormatSQL"]}
{"id": "C330", "title": "NULLS FIRST and NULLS LAST order the rows of an aggregate", "statement": "ARRAY_AGG(x ORDER BY k NULLS FIRST) puts the rows whose k is NULL first and NULLS LAST puts them last, with ASC and with DESC.", "quantifier": "every pair of rows, direction, NULLS clause and order of arrival", "why_tests_cant": "Keys and values are unbounded.", "anchors": ["internal/formatter.go:AggregateFunctionCallNode.FormatSQL", "internal/function_aggregate.go:sortAggregatedValues"]}
{"id": "C331", "title": "NULLS FIRST and NULLS LAST order the rows of a window", "statement": "ROW_NUMBER() OVER (ORDER BY k ...) numbers the rows whose k is NULL first or last as NULLS FIRST or NULLS LAST says; without the clause first with ASC and last with DESC. The other rows come in the direction written.", "quantifier": "every pair of rows, direction, NULLS clause and order of arrival", "why_tests_cant": "Keys are unbounded.", "anchors": ["internal/formatter.go:AnalyticScanNode.FormatSQL", "internal/formatter.go:AnalyticFunctionCallNode.FormatSQL", "internal/function_window_option.go:WindowFuncAggregatedStatus.Done"]}
{"id": "C332", "title": "CAST with FORMAT uses the format", "statement": "CAST(d AS STRING FORMAT 'YYYY') is the year of the date, CAST(b AS STRING FORMAT 'UTF-8') the text the bytes are and with 'BASE64' their base64 text.", "quantifier": "every date of the years 0 to 9999 and every BYTES value", "why_tests_cant": "Dates and bytes are unbounded.", "anchors": ["internal/formatter.go:CastNode.FormatSQL"]}
{"id": "C333", "title": "CAST to a type with parameters keeps to them", "statement": "CAST(s AS STRING(n)) and CAST(b AS BYTES(n)) never give more than n characters or bytes; CAST(q AS NUMERIC(p, n)) has at most n decimals.", "quantifier": "every value and every parameter", "why_tests_cant": "Values and parameters are unbounded.", "anchors": ["internal/formatter.go:CastNode.FormatSQL", "internal/spec.go:newType"]}
{"id": "C334", "title": "ORDER BY with COLLATE ignores case", "statement": "With ORDER BY x COLLATE 'und:ci' texts that differ in case only are equal and the others are in the order of their letters.", "quantifier": "every pair of texts and every collation name", "why_tests_cant": "Texts are unbounded.", "anchors": ["internal/formatter.go:OrderByScanNode.FormatSQL"]}
{"id": "C335", "title": "DISTINCT, IGNORE NULLS and LIMIT of an aggregate take effect", "statement": "ARRAY_AGG([DISTINCT] x [IGNORE NULLS] [LIMIT n]) over INT64 values returns the values in the order of the rows, without the NULLs if IGNORE NULLS is written, each value once and at its first place if DISTINCT is written, and of these the first n; if a NULL is left it is an error. COUNT([DISTINCT] x) is the number of the values (of the different values) that are not NULL.", "quantifier": "every column of INT64 values and NULLs, every combination of the clauses and every limit that is not negative", "why_tests_cant": "Columns are unbounded and the clauses combine; tests try a few rows each.", "anchors": ["internal/formatter.go:AggregateFunctionCallNode.FormatSQL", "internal/function_aggregate_option.go", "internal/function_aggregate.go:ARRAY_AGG"]}
{"id": "C336", "title": "Statistics over a frame are those of the frame's rows", "statement": "STDDEV_POP, STDDEV_SAMP, VAR_POP, VAR_SAMP over a ROWS frame, in a partition of two or more rows, compute the statistic of exactly the values of the rows of the frame, in the order of the window, and are NULL for an empty frame, if no value of the frame is NULL. So do CORR, COVAR_POP and COVAR_SAMP if no argument in the table is NULL.", "quantifier": "every table, partitioning, order, ROWS frame and row, with any functions for the statistics themselves", "why_tests_cant": "Tables, frames and orders are unbounded; tests try one small table for each function.", "anchors": ["internal/function_window.go:WINDOW_STDDEV_SAMP", "internal/function_window.go:WINDOW_VAR_POP", "internal/function_window_option.go:WindowFuncAggregatedStatus.Done", "internal/function_window.go:WINDOW_CORR"]}
{"id": "C337", "title": "Statistics over a frame ignore NULL", "statement": "STDDEV and VAR over a frame compute the statistic of the values of the frame that are not NULL.", "quantifier": "every table, partitioning, order, ROWS frame and row", "why_tests_cant": "Tables, frames and orders are unbounded; tests try one small table for each function.", "anchors": ["internal/function_window.go:WINDOW_STDDEV_SAMP", "internal/function_window.go:WINDOW_VAR_POP", "internal/function_window_option.go:WindowFuncAggregatedStatus.Done"]}
{"id": "C338", "title": "Statistics of one value over a frame", "statement": "If a frame has one row with a value, STDDEV_SAMP and VAR_SAMP over it are NULL and STDDEV_POP and VAR_POP are 0, whatever the partition's size.", "quantifier": "every table, partitioning, order, ROWS frame and row", "why_tests_cant": "Tables, frames and orders are unbounded; tests try one small table for each function.", "anchors": ["internal/function_window.go:WINDOW_STDDEV_SAMP", "internal/function_window.go:WINDOW_VAR_POP", "internal/function_window_option.go:WindowFuncAggregatedStatus.Done"]}
{"id": "C339", "title": "CORR and COVAR over a frame leave out rows with a NULL", "statement": "CORR, COVAR_POP and COVAR_SAMP over a frame compute the statistic of the pairs of the frame both of whose values are not NULL, and NULL if there are none.", "quantifier": "every table, partitioning, order, frame and row", "why_tests_cant": "Tables, frames and orders are unbounded; tests try one small table for each function.", "anchors": ["internal/function_window.go:WINDOW_CORR", "internal/function_window.go:WINDOW_COVAR_POP", "internal/function_window_option.go:WindowFuncAggregatedStatus.Done"]}
{"id": "C340", "title": "DISTINCT in statistics over a frame", "statement": "STDDEV_SAMP(DISTINCT x) OVER (...) computes the statistic of the different values of the frame.", "quantifier": "every table, partitioning, order, ROWS frame and row", "why_tests_cant": "Tables, frames and orders are unbounded; tests try one small table for each function.", "anchors": ["internal/function_window.go:WINDOW_STDDEV_SAMP", "internal/function_window.go:WINDOW_VAR_POP", "internal/function_window_option.go:WindowFuncAggregatedStatus.Done"]}
{"id": "C341", "title": "COVAR_POP over a frame is the population covariance", "statement": "COVAR_SAMP over a frame of n pairs is the codeviation divided by n - 1 and COVAR_POP that divided by n.", "quantifier": "every table of pairs of integers, partitioning, order and ROWS frame of two or more rows", "why_tests_cant": "Tables, frames and orders are unbounded; tests try one small table for each function.", "anchors": ["internal/function_window.go:WINDOW_CORR", "internal/function_window.go:WINDOW_COVAR_POP", "internal/function_window_option.go:WindowFuncAggregatedStatus.Done"]}
{"id": "C342", "title": "Definitions with ANY TYPE arguments", "statement": "CREATE FUNCTION with ANY TYPE arguments and no RETURNS is accepted if its body is well typed for some types of the arguments.", "quantifier": "every list of arguments, body and analyser", "why_tests_cant": "Types nest without bound and bodies are arbitrary; tests define a handful of functions.", "anchors": ["internal/analyzer.go:inferTemplatedTypeByRealType", "internal/spec.go:newTemplatedFunctionSpec"]}
{"id": "C343", "title": "The type of a call with ANY TYPE arguments", "statement": "The type a query reports for a call of a function with ANY TYPE arguments is the type the body has for the types of the call's arguments.", "quantifier": "every function, body, analyser and argument type", "why_tests_cant": "Types nest without bound and bodies are arbitrary; tests define a handful of functions.", "anchors": ["internal/spec.go:newTemplatedFunctionSpec", "internal/spec.go:CallSQL", "internal/catalog.go:addFunctionSpecRecursive"]}
{"id": "C344", "title": "ANY TYPE arguments are independent", "statement": "A call whose ANY TYPE arguments have different types is accepted if the body is well typed for them.", "quantifier": "every function, body, analyser and list of argument types", "why_tests_cant": "Types nest without bound and bodies are arbitrary; tests define a handful of functions.", "anchors": ["internal/spec.go:newTypeFromFunctionArgumentTypeByRealType", "internal/catalog.go:addFunctionSpecRecursive"]}
{"id": "C345", "title": "RETURNS of a function with ANY TYPE arguments", "statement": "A call of a function with ANY TYPE arguments and RETURNS t gives a value of type t, coercing the body, or is refused.", "quantifier": "every function, body, analyser and list of argument types", "why_tests_cant": "Types nest without bound and bodies are arbitrary; tests define a handful of functions.", "anchors": ["internal/spec.go:CallSQL", "internal/spec.go:newFunctionSpec"]}
{"id": "C346", "title": "Structs as ANY TYPE arguments", "statement": "A function with ANY TYPE arguments can be called with every struct, whether or not its fields have names.", "quantifier": "every function, analyser and argument type, nested to any depth", "why_tests_cant": "Types nest without bound and bodies are arbitrary; tests define a handful of functions.", "anchors": ["internal/spec.go:FormatType", "internal/spec.go:CallSQL"]}
{"id": "C347", "title": "ARRAY_CONCAT_AGG joins the arrays of the group", "statement": "ARRAY_CONCAT_AGG(a ORDER BY keys LIMIT n) returns the elements of the arrays that are not NULL, array after array: in the order of the rows without ORDER BY, in an order that respects the keys with it, and of the first n such arrays with LIMIT; NULL arrays are skipped and count neither as values nor towards LIMIT.", "quantifier": "all groups of arrays and NULLs of any number, all element lists, all ORDER BY keys of the supported types, all limits", "why_tests_cant": "the arrays of a group and the orders of its rows are unbounded", "anchors": ["internal/function_aggregate.go:ARRAY_CONCAT_AGG", "internal/function_bind.go:bindArrayConcatAgg"]}
{"id": "C348", "title": "Arrays of nothing are NULL", "statement": "ARRAY_AGG of no rows, ARRAY_CONCAT_AGG of no rows or of NULL arrays only, and ARRAY_AGG over an empty frame are NULL.", "quantifier": "all such groups, all tables and frames without rows", "why_tests_cant": "every empty frame position of every table", "anchors": ["internal/function_aggregate.go:ARRAY_AGG", "internal/function_aggregate.go:ARRAY_CONCAT_AGG", "internal/function_window.go:WINDOW_ARRAY_AGG"]}
{"id": "C349", "title": "ANY_VALUE over a frame returns a value of the frame that is not NULL if there is one", "statement": "ANY_VALUE(x) OVER (... ROWS ...) returns the value of some row of the frame, and NULL only if the frame has no other value.", "quantifier": "all tables, partitions, orders, ROWS frames and rows", "why_tests_cant": "all tables and frames", "anchors": ["internal/function_window.go:WINDOW_ANY_VALUE"]}
{"id": "C350", "title": "ARRAY_AGG with IGNORE NULLS over a frame leaves NULLs out", "statement": "ARRAY_AGG(x IGNORE NULLS) OVER (... ROWS ...) returns the values of the frame that are not NULL, in order, whatever rows of the table have NULL.", "quantifier": "all tables, partitions, orders, ROWS frames and rows", "why_tests_cant": "all tables and frames, wherever the NULL is", "anchors": ["internal/function_window.go:WINDOW_ARRAY_AGG", "internal/function_bind.go:bindWindowArrayAgg"]}
{"id": "C351", "title": "A view shows the rows its query means over the current tables", "statement": "After views are created one after another (each over tables and earlier views), and whatever the tables hold when a query is run, a query over tables and views gives the rows it means when each view stands for the rows, under the column names of the view, that its query means over the tables as they are then; names of views are compared without regard to case.", "quantifier": "all lists of views of any length and nesting whose queries are those of C137, all contents of the tables, all queries of C137 over tables and views", "why_tests_cant": "Tests create one or two views over fixed tables; the claim ranges over every chain of views and every later content of the tables.", "anchors": ["internal/spec.go:newTableAsViewSpec", "internal/spec.go:viewSQLiteSchema", "internal/stmt_action.go:CreateViewStmtAction.exec"]}
{"id": "C352", "title": "CREATE OR REPLACE VIEW changes the view and the views made from it, and nothing else", "statement": "After CREATE OR REPLACE VIEW of an existing view, queries give the rows they mean when the view stands for its new query: views created before from the replaced view show the new definition, the others what they showed.", "quantifier": "all lists of views, every position of the replaced view, all new definitions over tables and earlier views, all contents of the tables, all queries", "why_tests_cant": "Tests replace a view once and read it; the claim ranges over every chain of dependent views.", "anchors": ["internal/stmt_action.go:CreateViewStmtAction.exec", "internal/spec.go:viewSQLiteSchema"]}
{"id": "C353", "title": "DROP VIEW removes the view and leaves the others", "statement": "After DROP VIEW of a view that no other view needs, in any case of letters, the view is gone and every query over the tables and the remaining views gives the rows it means.", "quantifier": "all lists of views, every position of the dropped view, all contents of the tables, all queries", "why_tests_cant": "Tests drop one view; the claim ranges over every list of views.", "anchors": ["internal/stmt_action.go:DropStmtAction.exec", "internal/formatter.go:DropStmtNode.FormatSQL"]}
{"id": "C354", "title": "CREATE VIEW of a taken name changes no view", "statement": "CREATE VIEW of the name of an existing view fails, CREATE VIEW IF NOT EXISTS succeeds, and both leave every view as it is; of a free name every form of the statement adds the view.", "quantifier": "all stored views, all views, all modes", "why_tests_cant": "Tests try one name; the claim ranges over every state and view.", "anchors": ["internal/spec.go:viewSQLiteSchema", "internal/stmt_action.go:CreateViewStmtAction.exec"]}
{"id": "C355", "title": "ARRAY and STRUCT expressions give the values they are made of", "statement": "An expression built from values with ARRAY, STRUCT, field access and [OFFSET], [ORDINAL] and their SAFE_ forms, nested to any depth, gives the value it means; read as INT64, FLOAT64 or STRING it is that value, and NULL is NULL.", "quantifier": "every expression of any depth over values that C26 covers inside arrays (INT64 below 2^53 in magnitude), every index", "why_tests_cant": "Every function call passes its result through SQLite as JSON; tests use a few shallow expressions.", "anchors": ["internal/function.go:MAKE_ARRAY", "internal/function.go:MAKE_STRUCT", "internal/function.go:STRUCT_FIELD", "internal/function_bind.go:convertArgs"]}
{"id": "C356", "title": "Array elements and struct fields keep large INT64 values", "statement": "[z][OFFSET(0)] and STRUCT(z AS a).a are z for every INT64 z.", "quantifier": "every INT64 value", "why_tests_cant": "Tests use small numbers.", "anchors": ["internal/function.go:ARRAY_OFFSET", "internal/function.go:STRUCT_FIELD", "internal/decoder.go:DecodeValue"]}
{"id": "C357", "title": "TO_JSON and TO_JSON_STRING write BOOL as true and false", "statement": "TO_JSON(b) and TO_JSON_STRING(b) of a BOOL expression b are true or false, and so are BOOL elements and fields of the arrays and structs an expression builds.", "quantifier": "every BOOL expression of C355, every text of numbers", "why_tests_cant": "Tests have no BOOL in TO_JSON; the claim ranges over every expression.", "anchors": ["internal/function_bind.go:bindToJson", "internal/function_bind.go:bindToJsonString", "internal/function_bind.go:convertArgs"]}
{"id": "C358", "title": "FORMAT writes BOOL as true and false", "statement": "FORMAT('%t', b) and FORMAT('%T', b) of a BOOL b are true or false.", "quantifier": "both values, every behaviour of the other conversions", "why_tests_cant": "Tests have no BOOL in FORMAT.", "anchors": ["internal/function_format.go:FORMAT", "internal/value.go:IntValue.Format"]}
{"id": "C359", "title": "TO_JSON_STRING writes the elements of an array as it writes them alone", "statement": "TO_JSON_STRING of an ARRAY<INT64> expression is the texts of its elements, as TO_JSON_STRING gives them, in brackets.", "quantifier": "every list of INT64 values, every text of numbers", "why_tests_cant": "Tests use small numbers.", "anchors": ["internal/function_json.go:TO_JSON_STRING", "internal/decoder.go:DecodeValue"]}
{"id": "C360", "title": "Values stay the same through copies of tables", "statement": "After any history of CREATE TABLE, CREATE TABLE AS SELECT (columns and expressions of a table, with a condition), INSERT (of values or from a query), UPDATE, DELETE and DROP TABLE, a query of a table shows exactly the rows the statements wrote: no conversion of SQLite for the declared type of a column, whether given by the definition or taken over from a query any number of times, changes a value or a condition. A statement fails exactly when a table is missing, a name is taken, or an expression of it fails.", "quantifier": "all histories of statements over any tables, with columns of any type but ENUM and values of their types, all expressions and conditions", "why_tests_cant": "the declared types and so the conversions depend on the chain of copies a column has gone through", "anchors": ["internal/spec.go:SQLiteSchema", "internal/spec.go:newTableAsSelectSpec", "internal/rows.go:assignValue", "internal/encoder.go:CastValue"]}
{"id": "C361", "title": "CREATE OR REPLACE TABLE AS SELECT may read the table it replaces", "statement": "CREATE OR REPLACE TABLE t AS SELECT makes t from the rows of its query over the tables as they were, also when the query reads t itself; when it fails, t is as before.", "quantifier": "all databases, tables, queries of one table", "why_tests_cant": "the order of the drop and the query matters for the table named twice", "anchors": ["internal/stmt_action.go:CreateTableStmtAction", "internal/spec.go:newTableAsSelectSpec"]}
{"id": "C362", "title": "UnmarshalDatabaseTypeName inverts DatabaseTypeName", "statement": "UnmarshalDatabaseTypeName of the DatabaseTypeName of a column gives the type of the column with the names, kinds and order of all elements and fields at every depth; so different types have different names.", "quantifier": "all types: any nesting of arrays and structs, any field names that are valid UTF-8", "why_tests_cant": "types nest to any depth and names hold any character", "anchors": ["column.go:UnmarshalDatabaseTypeName", "internal/rows.go:ColumnTypeDatabaseTypeName", "internal/spec.go:newType"]}
{"id": "C363", "title": "The catalog table gives back every definition", "statement": "After any history of saved and dropped definitions of tables, views and functions whose names do not begin like a number and are each used for one kind of object, reading the catalog table gives exactly the last definition of every object that was not dropped, with all columns, types, keys, arguments, code and bodies as they were.", "quantifier": "all histories; all definitions whose texts are valid UTF-8", "why_tests_cant": "definitions hold texts with any characters and types of any depth; histories are unbounded", "anchors": ["internal/catalog.go:saveTableSpec", "internal/catalog.go:saveFunctionSpec", "internal/catalog.go:loadTableSpec", "internal/catalog.go:loadFunctionSpec", "internal/catalog.go:createCatalogTableQuery"]}
{"id": "C364", "title": "Tables of different names are different rows of the catalog table", "statement": "Saving a table leaves the saved definitions of tables with other names as they are, whatever the names.", "quantifier": "all pairs of names", "why_tests_cant": "names are unbounded", "anchors": ["internal/catalog.go:createCatalogTableQuery", "internal/catalog.go:upsertCatalogQuery"]}
{"id": "C365", "title": "ARRAY(subquery) has an element for each row", "statement": "ARRAY(SELECT ...) is the array of the values of the subquery's column, one for each row and in the order of the rows, NULL where the value is NULL, and the empty array when there is no row. The subquery is one of C137 and may read columns of the queries around it, to any depth. No value's text is the JSON of an aggregate option (C366).", "quantifier": "all subqueries of C137, rows around them, databases, names, functions and values", "why_tests_cant": "The subqueries, the number of rows and the depth of nesting are unbounded.", "anchors": ["internal/formatter.go:SubqueryExprNode.FormatSQL", "internal/function_aggregate.go:ARRAY", "internal/function_bind.go:bindArray"]}
{"id": "C366", "title": "ARRAY(subquery) keeps every value whatever its text", "statement": "The array of C365 has all the values also when the text of one is the JSON of an aggregate option.", "quantifier": "all lists of values", "why_tests_cant": "It takes a particular text among any number of values.", "anchors": ["internal/function_aggregate_option.go:parseAggregateOptions", "internal/function_bind.go:Step", "internal/function_aggregate.go:ARRAY"]}
{"id": "C367", "title": "Each window function has its own OVER", "statement": "In a query with any number of window functions with different OVER clauses, in queries nested to any depth in FROM, each function is computed with the PARTITION BY and the ORDER BY of its own OVER, and with none where it has none. No argument of a window function has a subquery with window functions (C368).", "quantifier": "all numbers of functions, OVER clauses and nestings", "why_tests_cant": "The clauses are handed on through state shared by the whole statement; the number and nesting of functions is unbounded.", "anchors": ["internal/formatter.go:AnalyticScanNode.FormatSQL", "internal/formatter.go:AnalyticFunctionCallNode.FormatSQL", "internal/context.go:withAnalyticOrderColumnNames"]}
{"id": "C368", "title": "A window function in an argument of another leaves the OVER of both", "statement": "The same when an argument of a window function is a subquery with window functions.", "quantifier": "all trees of window functions", "why_tests_cant": "It takes a nesting of scans in arguments and a further function with the same OVER.", "anchors": ["internal/formatter.go:AnalyticScanNode.FormatSQL", "internal/formatter.go:AnalyticFunctionCallNode.FormatSQL", "internal/context.go:withAnalyticPartitionColumnNames"]}
{"id": "C369", "title": "Argument types of calls with ANY TYPE arguments", "statement": "A call of a function with ANY TYPE arguments is analysed with the types its arguments have, whatever the names of their STRUCT fields.", "quantifier": "every type, nested to any depth, with every field name, every function and analyser", "why_tests_cant": "Types nest without bound and field names are arbitrary texts; tests pass a few scalars.", "anchors": ["internal/spec.go:FormatType", "internal/spec.go:CallSQL", "internal/spec.go:newTemplatedFunctionSpec"]}
