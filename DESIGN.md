# Verification of go-andiamo/aitch in Rocq

The source is pinned in `/repo`; it is read as text and never built or run.
Coq 8.16.1, standard library only, no plugins.  Build:
`cd rocq && coq_makefile -f _CoqProject -o Makefile && make -j4`.

* Properties: `properties.jsonl` (English).  Theorems: `MANIFEST.json`.  A
  theorem of property Cnn is called `Cnn_…` and stands in a file `Prop….v`.
* `…_partial`: only part of the English claim.  `…_refuted`: the English claim
  is false of this code; the theorem is a counterexample, decided by
  computation.  Where a claim is refuted, the remaining theorems of that
  property say how much of it holds.
* `C.._example` next to a theorem: a concrete case that meets its hypotheses.

## 1. How the code is modelled

The renderer is a sequential program with three kinds of interaction it does
not control.  `IO.v` makes them the effects of a free monad `io`:

| effect | Go | who answers |
|---|---|---|
| `Wr d` | `Writer.Write(d)` | a `writer`: any function of the history of calls so far and the data, to `(n, err)` |
| `Cb k` | a user callback (condition, dynamic value, collector, iterator, a step of an imperative function) or a read of a user map | user state `U` of any type, read and changed |
| `Pick ks` | `range` over a Go map | any permutation of the keys, chosen afresh each time |

`run` executes such a program in an environment.  Theorems quantify over the
environment, so they hold for every writer (failing at any byte, transiently or
for good), every user state and callback, and every map order.  `ctx.Error` is
threaded explicitly, because several findings depend on where the code
overwrites it.

### Model files

| file | models |
|---|---|
| `Bytes.v` `IO.v` | byte strings; effects, environments, runs |
| `Escape.v` | `value.go` htmlEscapeString: fast path and index-based slow path |
| `Nodes.v` | node, value, attribute and context types; validity of names |
| `Values.v` | `value.go`: valueToBytes, newValue(s), NewValue, NewConcatValue, Value.render; `context.Write` |
| `Render.v` | every `Render` method of package aitch and of html.document; renderAttributes; the operations of ImperativeContext |
| `Pointer.v` | the same `Render` methods with contexts as objects behind pointers, for callbacks that assign fields of contexts or keep contexts; `Lift.v` maps the nodes of `Nodes.v` to its nodes |
| `UserAttr.v` | attributes of user-defined types in the tags of elements and of Start |
| `Slices.v` | Go slices (array, length, capacity) and `append` |
| `Build.v` | every constructor: attributes, elements, attributesAndContents with its shared condition slices, Collection, Conditional, When, Iterate…, Text, Fragment, Comment, PI, Nbsps, Document |
| `Tables.v` | the 700 one-line functions of html, svg, css, htmx, the string constants and the generator tables, read off the source by `tools/gen_tables.py` |
| `Packages.v` `Headers.v` | what those functions call; css units and prefixed attributes on slices; htmx headers |
| `Sharing.v` | construction on shared, mutable attribute nodes (a heap of attributes) |
| `Memory.v` | the two pieces of rendering code that append to slices, on backing arrays, run by several goroutines |
| `Reflect.v` | `context.Get`, `context.MustGet` and the part of `reflect` they use |
| `Template.v` | `template.go` |
| `Accessors.v` | the accessors Type and Name of every node |
| `Generator.v` | both `GenerateCode` functions |
| `Rebuild.v` | running generated code: its expressions as calls of the functions above |

Every definition there cites the lines it models.

### Specification files

`SpecEscape.v` (entities and their decoding), `SpecOut.v` (reference rendering:
a node denotes a byte string and a change of user state; no writer, no errors),
`SpecElem.v` (declared attributes and their resolution, on lists of
declarations), `SpecErr.v`, `SpecHtml.v` (an HTML tokenizer after the WHATWG
text), `SpecReader.v` (its preprocessing of newlines), `SpecTemplate.v` (templates as plain data and their tokens),
`SpecSafe.v`, `SpecSteady.v` (callbacks that do not change state), `SpecGet.v`
(what a key selects), `SpecGo.v` (Go's lexical grammar and call expressions),
`SpecGen.v`, `SpecRebuild.v` (the tokens of a document), `SpecSource.v` (templates
as the author writes them, with the conditions around each attribute),
`SpecReturn.v` (what a function may return), `SpecShared.v` (lists of conditions
that share an array), `SpecStart.v` (the attributes of a tag written by Start),
`SpecJson.v` (the grammar of JSON), `SpecComponent.v` (templates with parts moved
into components), `SpecNamed.v` (what a function is named after), `SpecText.v` (UTF-8; templates made of
one kind of text), `SpecRun.v` (the observables: result, page, writer calls).
None of them mentions model helpers beyond the node and context types and the
public constructors.

### Tests of the model

`Conformance.v` replays the expectations of the repository's own unit tests and
README against the model (about 900 stated outputs, 709 of them read by
`tools/gen_testtable.py`).  These are tests, not proofs; they are there because
the code itself may not be run.  `seeded/LOG.jsonl` records the reverse test:
wrong programs, and the theorems that reject them.

### The source itself

`tools/go2rocq.py` translates the Go files of package aitch, of context and
html.Document mechanically into `Source.v`, and the element, attribute, property
and unit functions of html, svg, css and htmx into `SourceLib.v`: one program in the abstract
syntax of `GoSyntax.v` (one constructor per Go construct; the translator stops at anything
it does not know).  `GoSem.v` is an interpreter of that syntax: a heap of
structs, arrays and maps, slices with capacity, calls, closures, type switches,
the writer, map order and user callbacks as in `IO.v`.  `GoRun.v` defines what it
means that a piece of Go code does what a model program says (`sim`: same calls
of the writer, same callbacks, same picks, same result, no panic) and its rules;
`GoRep.v` how heap objects represent the nodes of the model; `GoStep.v` and
`GoOwn.v` the stepping tactics and the rules for private slices and structs.
`Refine….v` then prove, function by function, that the translated source does
what `Render.v` says; `RefineAll.v` puts them together (`every_node`,
`source_renders`): for every node, context, writer, map order and user code, the
translated Render method ends without a panic, makes the calls of the writer and
of user code that `render` makes, returns what it returns and changes nothing on
the heap but `ctx.Error`.  So what is proved of `render` is proved of the source
as translated.  `RefineNew.v` to `RefineDocument.v` do the same for the
constructors: `GoShare.v` says how the heap represents nodes that share attribute
objects (`Sharing.v`), and `builds` that a call makes the node of the model, or
panics when it does, and keeps what other nodes hold.  `Programs.v` models programs
of such calls, `RefineProgram.v` runs them on the source, `ProgramPure.v` compares
them with programs on values (`ProgramValues.v`); C72.  `Library.v` gives the calls
of html.Div, css.Px and so on their meaning by the tables, `RefineLib.v` checks the
tables against the source and runs such programs on it; C73.  `HeadersRun.v` has
htmx.Headers and HeadersJS with map orders picked as the loops come to them (with
the results of `Headers.v`), `RefineHeaders.v` their source; C74.  `RefineGen.v`,
`RefineGenLoop.v` and `RefineGenMain.v` do html.GenerateCode and svg.GenerateCode; C75.
`RefineTemplate.v` does template.go; C76.  `RefineGet.v` does context.Get and MustGet,
on values that carry their types as in `Reflect.v`; C77.  `RefineSmall.v` does what
is left: Type and Name of the nodes, context.New, Nbsp and Nbsps; C78.
`PropReadme.v` has the programs of `_examples/readme`, with their data left open; C79.
`GoThreads.v` runs the translated source of several goroutines, one step of one of
them at a time, over a memory of shared objects and of objects of each goroutine;
`PropThreads.v` has Render and Execute run that way; C80.  `GoShared.v` gives all of them one
writer; C81 (`PropOneWriter.v`), that nodes may be handed in again, C82 (`PropHanded.v`).  For this `sim` says more
than that the results are right: with a *floor* given (`floor` in `GoRun.v`), no step
writes to an object below it, not even to put it back later.
`GoExamples.v` runs the translated source.

The translator leaves as it is what Go source says, with these exceptions: a
variable that a closure assigns (`err` and `indent` in GenerateCode) becomes the
field of a struct on the heap, which is what the Go compiler does with it; a
closure captures the variables it mentions; `m[k]` as a condition is converted to
bool, so that a missing entry is false.  A type
parameter is a type called T.  No function is left out: all 839 functions and
methods of the Go files other than tests and examples are translated.

## 2. What is not modelled

* User-defined implementations of the `Node` interface are modelled.  For the
  library they are nodes with a Render method and no attributes, which is what
  `NImper` holds (C58).  Those whose Type is AttributeNode are in `UserAttr.v`
  only, tag by tag (C66, C67); every other property is about templates without
  them.
* In `Render.v`, conditions, dynamic values, collectors and iterators see a
  read-only view of the context (Error, Data, Cargo, Parent) and the user state.
  They may change maps reachable from Data (maps live in the user state), but do
  not assign the context's fields and do not write to the writer behind the
  renderer's back.  Imperative functions and the Render methods of user-defined
  nodes may: they write through their ImperativeContext or to the writer itself,
  render nodes with their context or a new one on the same writer, and assign
  `ctx.Error`.  Such a function is a tree of operations of finite depth and any
  width, so it terminates.
  `Pointer.v` lifts the rest of this restriction: callbacks get a pointer and may
  read, assign and keep any context.  C63_agree says that the two models agree for
  callbacks that only read.  There, assigning Writer and String methods or
  `func() any` that touch contexts are left out.
* A `[]byte` is kept by reference; changing its bytes after construction is left
  out (a dynamic value that reads the user state does the same).
* Callbacks terminate and do not panic, and IterateYield's yield is called only
  while the function runs; stack and heap exhaustion do not occur.
* Typed nil pointers (a nil `*T` that implements fmt.Stringer), nil functions of
  type `func() any`, values that are both slices and Stringers, and a nil context
  passed to `Render`, are left out.
* `strconv.FormatFloat` (a float value carries its text), `regexp` (the one
  expression is written as a predicate), `sort.Strings` (any function that
  returns the ascending arrangement), `strings.ToLower` on ASCII.
* `reflect`, `html/template`, the tokenizer of `golang.org/x/net/html`: library
  code, described from its documentation in `Reflect.v`, `Template.v`,
  `Generator.v`.  For templates, every action is `{{token .}}`, between tags or
  inside a tag where an attribute can stand (not in an attribute's value, a comment,
  or the text of a script or style); inside a tag html/template writes `ZgotmplZ` for
  an empty result whose type is HTML, and nothing if it is HTMLAttr.  No token is named like a
  keyword of the template language, or html or urlquery.  Its Funcs panics on a
  name that is not an identifier.  For the generators, the input is any sequence
  of tokens.
* In C38–C40 and C53, `GenerateCode` with a nil writer; C75 has it, with one writer
  standing for the one passed and for os.Stdout.
* The Go memory model.  Concurrency is interleaving of atomic steps: effects
  (C33_no_interference) or array reads and writes (C33_attributes, C33_start).
* In `Sharing.v`, nodes that a callback keeps or builds while rendering.
* The tokenizer of `SpecHtml.v` omits character references other than the five
  the library writes, the identifiers of a doctype (only its name is read) and
  the escaped states of script data.

## 3. Trusted base

* Coq's kernel (and its virtual machine, used by `vm_compute`).
* Axioms: none.  `tools/assumptions.py` runs `Print Assumptions` on every
  theorem of the manifest; all of them answer "Closed under the global context".
  `coqchk -o` and vcheck also list the opaque constants of
  `Coq.ssr.ssrunder.Under_rel` (a sealed module of the standard library that is
  loaded with ssreflect's prelude by the standard library itself); no theorem
  uses them.
* That the model files describe the cited Go lines, and these facts about Go,
  taken from the language specification and the source of the runtime:
  - `append` writes in place when length < capacity and otherwise copies to a new
    array whose capacity is at least what is needed; the growth rule of small
    slices (`go_grow` in `Slices.v`) matters for C14 only;
  - a package-level `[]byte("…")` has capacity equal to its length (C35; without
    this the claim is false, `C35_spare_capacity`);
  - `range` over a map visits each key once in some order;
  - struct field promotion, `FieldByName`, and the panics of `Value.Interface`
    and of nil embedded pointers (C42, C43).
* For C69–C82: that `tools/go2rocq.py` reads Go syntax correctly, and that `GoSem.v`
  interprets it as Go does.  Its simplifications are stated there (byte slices are
  values, all slices start at the beginning of their array); besides, integers do
  not overflow, a missing map entry is nil, a map in an interface is a HeadersMap that
  is not nil (the only named map type), user code can allocate but not change
  the package's structs, and the plain attributes it passes to Start have no spare room for values
  (else Start writes to it, C33).  Nodes it builds or has already: a `go_mode` has a function that, at each node user code
  hands in, may give any value that stands for it on the heap (`m_known`).  It also says what PanicOnInvalidName is and which Go types
  the model's integers, unsigned integers and floats have; any of Go's is allowed.  It also says which
  names outside ASCII are identifiers and how html/template reads the text of a
  template; these are arbitrary functions.  And it has the struct declarations, the
  method sets and the type T that Get is used at.
  For C75, `GoSem.v` also describes what GenerateCode uses of other packages: the
  tokenizer as an object that gives the tokens in turn and then the reader's error,
  the name that runtime.FuncForPC gives for a function (path, dot, identifier),
  strings.Replace, ToLower (of bytes, and of the two non-ASCII characters whose
  lower case is ASCII), Trim and LastIndex.  For C76 it describes New, Funcs, Parse
  and Execute of html/template, with the limits named in section 2; a NodeMap is not
  nil, and as a function always gives back the empty string, Execute writes the texts
  between tokens, calls the functions, and writes what the type of their result makes
  of the empty string in that place (any other result is not described).  The translator
  writes the conversion of a returned constant to HTML or HTMLAttr out.  For C77 it has the methods
  of reflect that Get uses, by the descriptions of `Reflect.v`; a zero value of type
  T is written nil, and the values in Data and Cargo are not those of rendering.
  For C80: a step is one operation of `GoSem.v` on the memory, the writer or user
  code; user code is one step and has a state for each goroutine; what html/template
  does by itself at the first Execute of a template, under its own lock, is left out;
  writing to an object the value it has already is not told from not writing.
  Objects that a goroutine allocates are put with its own ones, so that no other
  goroutine has a name for them; that is all there is to private objects, as nothing
  shared is ever made to point to them (this is part of what is proved).
* That the tables in `Tables.v` were read correctly (`tools/gen_tables.py`
  rejects any function whose body it does not recognise).  Those of functions and
  constants are also proved to agree with the translated source (C73), and those of the
  generators (C75).

## 4. Properties: what is proved and how

* **C01** inert strings — induction over the string on the escape model, lifted
  to text, element content, attributes, comments, keys, cargo, WriteString, and to
  any writer.
* **C02** lossless — an independent entity decoder is a left inverse up to NUL.
* **C03** scalars — by cases; numerals by induction (they read back).
* **C04** dynamic keys — page equation for the key against the static value.
* **C05** element shape — page equation against the reference rendering.
* **C06** no injection — the tokenizer run on the output of any template given
  as plain data returns its tokens (`C06_roundtrip`); for every other template
  the output is properly nested if values are inert (`C06_any_template`).  A
  whole `Document` reads as a doctype named html and one html element
  (`C06_document`).
* **C07, C08** void elements, names — page equations; the language of names is
  given by listing its characters.
* **C09–C13, C17** attributes — invariant of the attribute table; resolution by
  name on lists of declarations; permutations for map order.
* **C14** nested conditions — *refuted* at four levels with two siblings: sibling
  conditionals overwrite each other's condition in a shared slice.  Proved for
  every template in which no conditional with spare capacity has two below it;
  `C14_exact` says for every other one which conditions decide: the last write to
  a shared cell, in the order in which the conditionals are visited.
* **C15, C16** conditions — page equations.  *C16 refuted* for keys that begin
  with `!`; complement proved for all others.
* **C18** nil — proved for elements, values, Collection, WriteNodes,
  ContentCollect, Start; *refuted* for Conditional, When, Iterate… (panic).
* **C19, C20** healthy and dying writers — induction over nodes against the
  reference rendering; two environments give the same run up to the first
  different answer.
* **C21–C23, C50** errors — one proof rule for invariants that relate ctx.Error
  to the writer's history.  *Refuted* in general: Value.render writes regardless
  of ctx.Error and overwrites it, and an Imperative function can return nil.
  Proved for writers that keep failing, templates without values, every element.
  `C22_last_call_partial` says which error is returned, whatever the writer does
  (the answer to its last call); `C23_only_values_partial` says what is offered
  to a writer after it failed (the data of values, never markup).
* **C24, C25, C27** iteration — page equations, induction over items.
  **C26** *refuted*: an item that is not a map sees the most recent map.
* **C28** imperative nesting — invariant of the stack of open elements.
* **C29** Start — *refuted* when a name is declared with different kinds of
  attribute and when the first delimited value is empty; proved otherwise.
  `C29_exact` gives the tag for all attributes.
* **C30, C45, C46, C48, C49, C52** — page equations.
* **C31** isolation — heap of attributes.  *Refuted*: an element merges into the
  delimited attribute it was given.  Proved: nothing else ever changes; histories
  that use each attribute once agree with the functional model.
* **C32** repeatability — for steady callbacks, histories of renders.
* **C33** concurrency — schedule independence of effects and of array accesses.
  *Refuted* for Start with a plain attribute that has spare capacity.
* **C34** css units — *refuted*: one cell past the caller's slice is overwritten
  when there is room; everything else proved.
* **C35** prefixes — histories of calls on slices.
* **C36, C37** headers — sorting and permutations; inertness of keys.
* **C38–C40** generators — reading the code by Go's grammar gives back the
  document.  *Refuted*: NUL, invalid UTF-8 and byte order marks in literals;
  quotation marks in names; unclosed void tags; errors overwritten by later writes.
* **C41** tables — finite, decided by computation.  *Refuted*: html.Track, camel
  case keys of svg, functions without entry.
* **C42, C43** Get — Go's selector rule as specification.  *C43 refuted*:
  map keys of a defined type, unexported fields and nil embedded pointers panic;
  nothing else does (`C43_exact`).
* **C44** templates — pieces in order, first failure stops; with html/template's mark
  after a node inside a tag that is not an attribute (`C44_misplaced`), without one if the
  tokens are in place (`C44_in_place`).
* **C47** css — the style attribute of any mixture of calls.
* **C51** last declaration — *refuted*: an active conditional declaration beats a
  later static one, and a group beats what stands beside it; the exact order is
  proved (`C51_order_partial`).
* **C53** rebuilding — composition of C39 and C06: the generated expressions
  evaluate to the template of the document (induction over documents; the tables
  by computation), and that template reads back.  *Refuted* for scripts and
  comments with `&` or `<`, names the package refuses, boolean attributes with a
  value, the attribute `aria-`, repeated attributes.
* **C54** errors of Imperative functions — induction over the function's program.
  *Refuted*: text after it in an element overwrites ctx.Error; WriteNodes,
  ContentCollect and Document ignore results.  `C54_nested_partial` follows it
  through any depth of the other nodes.
* **C55** htmx variables — page equation; a pair is never empty, so C12 joins all.
* **C56** false conditionals — simulation between the lists of conditions with and
  without them, on the characterisation of C14.  *Refuted* four deep, and for
  conditions that change their answer.
* **C57** JSON headers — *refuted*: keys stand in single quotes.  Proved for all
  maps that the value is JSON exactly when there are no headers, by inversion on
  the grammar.
* **C58** components — congruence: a relation `swap` between templates with and
  without components around contents, over every constructor; it implies equal
  attributes and equal runs.  *Refuted* for attributes in a component.
* **C59** names — decided over the tables of functions and constants.
* **C60** text — an invariant of programs (all they write is of the kind, whatever is
  answered), by induction on nodes; the constructors keep to the kind.
* **C61** making templates — case distinction; *refuted* for node maps with keys
  that are not identifiers, on which Funcs panics.
* **C62** accessors — case distinction; the functions by computation over the
  tables.
* **C63** contexts — simulation between the pointer model and the model with
  contexts as values (equal effects, heaps that differ in one Error and in new
  objects); for other callbacks, a frame rule for programs over the heap.
* **C64** items — the runs with and without the assignment have equal heaps but
  for the item's context whenever a callback looks.  *Refuted* for IterateYield.
* **C65** stored errors — an invariant of programs that relates the user state to
  ctx.Error.  *Refuted*: Value.render assigns ctx.Error unconditionally, and
  Iterate returns nil when it has no items.
* **C66, C67** user-defined attributes — resolution by name as for C09–C13, on a
  model with two kinds of attribute; exchanging declarations is a simulation.
  *Refuted* beside delimited attributes and in Start, which know the library's
  own types only.
* **C68** newlines — preprocessing the input and then tokenizing is the same as
  tokenizing and then preprocessing the tokens, for every input (a simulation of
  the tokenizer by itself); composed with C06.  *Refuted*: CR is written as it
  is, and the tree builder drops the first newline of a textarea.
* **C69–C71** the source — the translated Render methods are run on a heap and
  simulate `render`, one induction over nodes and user programs (`every_node`);
  no panic, the frame condition on the heap and the reference page follow.
* **C72** programs — every constructor of the source is run on the heap and
  simulates its model on shared nodes (`go_make_builds`: locations of attribute
  objects correspond, what other nodes hold is framed); with C71 by induction over
  the program.  Programs that pass attributes on once also simulate the model on
  values (`prog_both`, the invariant of C31).
* **C73** library functions — the bodies of all functions in `SourceLib.v` are
  classified by a checker that computes (`shape`), proved sound once for each of
  the three shapes (`passes_forwards`, `one_hands`, `appends_spec`); with C72.
* **C74** headers — the loops over arguments and maps are run on the heap (`merge_turns`,
  `headers_turns`, `entry_turns`); orders differ from those of the model of C36, but merged
  maps agree key by key and sorted keys are unique (`headers_run`); with C36 and C71.
* **C75** generators — the closures of GenerateCode are specified and proved one by one
  over the heap with the boxed variables (`write_spec`, `html_start_spec`, …), the loop by
  induction over the tokens (`loop_ok`); the maps of functions are those of the tables, by
  computation; with C38–C40 and C53.
* **C76** template.go — the loop of contextFuncMap in any order (`contextFuncMap_spec`,
  `picked_perm`), the closures of contextFunc (`func_call`), Execute piece by piece
  (`pieces_spec`); with C44 and C61.
* **C77** context.Get — the source is run for every shape of Data and Cargo (`Get_spec`);
  with C42 and C43.
* **C78** accessors — by cases over the nodes in a heap (`Type_spec`, `Name_spec`), with C62
  for what is written; Nbsps by induction over its loop (`Nbsps_spec`), with C46.
* **C79** the README's programs — the programs of `_examples/readme` as `lcmd`s of `Library.v`
  (C73, C76), the pages calculated with data left open (`entry_key`, `yes_keyed`), by induction
  over the items of the iterations.
* **C80** goroutines on the source — the proofs of C69 to C71 and C76 made for any floor give
  runs that leave what is shared as it is at every step (`ran`); such runs are cut into steps
  (`ran_gets`) and put together by induction over the schedule (`every_schedule`, `can_finish`).
  `C80_shared_context_refuted`: with one context for two goroutines it is false.
* **C81** goroutines with one writer — a run is followed step by step by a run of C80 in which
  each goroutine has a writer that replays the recorded answers (`follow_turns`), changed to be
  one that dies if the shared one is (`mortal`); the end by running the goroutines out one by
  one (`alone`).  `C81_whole_pages_refuted`: the output need not have the pages whole.
* **C82** which objects make up a node — both runs simulate the model of the same node, and
  `mode_ok` says of `m_known` only that it is truthful.  The case in `PropHanded.v` is user
  code that never builds a plain text or attribute twice.
