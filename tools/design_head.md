# DESIGN: a Rocq model of goccy/go-zetasqlite

The subject is the Go code in /repo (driver, catalog, analyzer glue, value codec, SQL function
library, aggregates and window functions).  The code was read as text, never run.  Everything below is
about a hand-written model of it in Rocq (Coq 8.16.1); the tie to the code is the citation in
the comment above each definition.

## Layout

`rocq/theories/` holds, per area `X`:

| file | contents |
|------|----------|
| `XModel.v` | computable Gallina model, one definition per Go function, each citing file and lines; no proofs |
| `XSpec.v`  | the independent specification used by the property statements (small, does not use the model) |
| `XProofs.v`| lemmas |
| `XProps.v` | the property theorems only: statement, `exact lemma.`, `Print Assumptions`, and an `Example` showing a concrete non-trivial case meeting the hypotheses |

Naming: `cNN_...` is a theorem for property CNN at full strength; `cNN_..._partial` proves it on a
stated sub-domain (what is missing is said in the comment above it and in MANIFEST.json);
`cNN_..._refuted` proves that the faithful model violates the property and gives the witness.
A property that is refuted has status `partial` in the manifest: the positive theorem says on
which inputs the code is right, the refutation says where it is not.

## Trusted base

* Coq's kernel (8.16.1) and `coqchk`.
* `Print Assumptions` under each property theorem says `Closed under the global context` (see the
  end of this file).  No axiom, parameter, functor or module type is declared.
* The reading of the Go source: the model definitions are transcriptions, the comments cite lines
  and state simplifications.
* Behaviour of things outside /repo that the model fixes by definition: Go integer arithmetic
  (two's complement wrap, truncated division, shift counts), Go `strings`/`time`/`encoding` functions
  used by the code (re-implemented in the model from their documentation), SQLite's execution of
  the generated statements where a property needs it (upsert, DELETE, CREATE/DROP TABLE, set
  semantics of the MERGE statements), and the ZetaSQL analyzer (never modelled: its output is an input of
  the model).

## Not modelled

ZetaSQL parsing/analysis, part of formatter.go's node-by-node SQL generation, the SQLite engine itself
(except where named above), JSON library and JSON path functions, the JavaScript engine (goja), regular
expressions beyond LIKE and wildcard tables, floating-point arithmetic beyond INT64 through float64, hashing,
HLL sketches, the contents of the time zone database, memory exhaustion, goroutine preemption
inside one critical section.  The tables at the end of this file say it file by file.

## Per-property plan
