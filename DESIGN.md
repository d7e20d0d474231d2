# Formal model of tchupp/ignition in Rocq (Coq 8.16.1)

Source: `/repo` (crates `weave`, `bowtie-core` and `weave-visualizer`).  The model is in `rocq/theories` and uses the
standard library only.  `properties.jsonl` lists the properties (C01, C02, ...), `MANIFEST.json` maps each
of them to theorem names, `seeded/LOG.jsonl` records the wrong programs tried against the theorems.

## 1. Files

### Model (definitions only; each cites the file and lines it models)

| file | models | from /repo |
|---|---|---|
| `Base.v` | the `Ord + Eq + Hash` item contract (class `Ord`), stable sort, itertools `unique`, `HashMap`/`BTreeMap` as sorted association lists, hash iteration order as an arbitrary permutation oracle (`hash_order`), option monad | std / itertools / hashbrown as used |
| `DD.v` | decision-diagram values (what a `NodeId` denotes): `Leaf bool` (Never/Always, FALSE/TRUE) and `Branch`; `paths`, `labels`, `size` | `zdd2/forest/node/mod.rs`, `zdd/node/mod.rs`, `bdd/node/mod.rs` |
| `Zdd2Model.v` | `Node::branch` with all its rewriting arms, union, intersect, product, subset*, trees, Universe, Forest, root translation, canonicalisation, `Reach` = everything obtainable through the API | `weave/src/zdd2/forest/**` |
| `MatrixModel.v` | hash-set forest and both (identical) `Tree` types, `FReach`/`TReach` | `weave/src/matrix/**`, `weave/src/zdd2/tree/**` |
| `HandModel.v` | any value of the public `matrix` and `Tree` enums; the data of a serialized `Tree` | `weave/src/matrix/**`, `weave/src/zdd2/tree/mod.rs` |
| `ZddModel.v` | the older `zdd` module: node operations, both enumerators, Universe, Tree, restrict, summarize, traverse, `ZReach` | `weave/src/zdd/**` |
| `ParserModel.v` | node printer, nom parser (byte level, `usize` overflow explicit), `trim`, Forest/Tree serialize and deserialize, Forest `Debug` | `zdd2/forest/node/{parser,serialize}.rs`, `zdd2/forest/universe/serialize.rs`, `zdd/node/{parser,serialize}.rs` |
| `BddModel.v`, `BddRun.v` | bowtie-core nodes (`&`, `\|`, `^`, `!`, reduce, restrict, summarize, structure/content), closets, `ClosetBuilder` as a history of calls, select, complete_outfit, categorize, counts | `bowtie-core/src/**` |
| `BddCount64.v` | the counters with machine additions, overflow checks on or off | `bowtie-core/src/bdd/closet/node_count.rs` |
| `HashModel.v`, `HashSpec.v` | `Node::hash_structure`, over an arbitrary hash function behind `DefaultHasher` (the bytes written to it are modelled) | `bowtie-core/src/bdd/node/hash_structure.rs` |
| `LoadModel.v` | build_node_string, the nom parser and `fmt_inner` as programs over the shared arena; threads whose calls may panic | `zdd2/forest/node/{parser,serialize}.rs`, `zdd2/forest/mod.rs` |
| `DebugModel.v` | `Debug` of zdd, zdd2 and bowtie nodes and of zdd trees | `node/mod.rs` of the three modules, `zdd/tree/mod.rs` |
| `VizModel.v`, `VizSpec.v` | the rendered page as a tree of elements (`html`), the application's own tree; reading a page back (`entries`, `draws`) | `weave-visualizer/src/visualizer.rs` |
| `ArenaModel.v` | the interning arena; programs over it, one `Get`/`Find`/`Add` per lock-protected section; interleaving step | the three `arena.rs` and the `From` impls |
| `Zdd2Prog.v`, `ZddProg.v`, `BddProg.v` | every public operation again, as a program of arena accesses | same sources as the functional models |
| `PoolModel.v` | any number of threads running scripts of calls against one arena | – |
| `LockModel.v` | the same pools with the `RwLock` taken apart: guard, lookup, push, insert and drop as single steps of a thread, interleaved with any others; poisoning | the three `arena.rs` and the `From` impls |
| `StackModel.v`, `StackZModel.v`, `StackBModel.v` | the calls again, nested calls and rounds of loops counted apart, and the bounds on the nesting (C101–C103) | the recursive functions of the three modules |
| `StepsModel.v`, `CostModel.v` | runs that count the accesses of one call among other threads (C104); what a call may cost and the worst cases (C105) | – |
| `WordModel.v` | `Universe::merge` and union, intersect, product again, the counts added in machine words of any size, with and without overflow checks | `zdd2/forest/universe/mod.rs`, `zdd2/forest/mod.rs` |

### Specification vocabulary (independent of the model's helpers)

`Spec.v` (families of sets, counts, item order, re-ordering), `BddSpec.v` (evaluation, legal closets, valid
outfits; over the builder call history only), `AgreeSpec.v` (the family a program of Forest calls stands for), `ZddSpec.v` (status rules, mirrored diagrams),
`ParserSpec.v` (which texts spell which diagram; what a text with labels in any order comes out as).

### Proofs

`Zdd2Node(2)`, `Zdd2Univ`, `Zdd2Forest(2,3)`, `Zdd2Exact(2)`, `Zdd2Sink`, `Zdd2Settle`, `Zdd2Resort`, `Zdd2Laws`, `Zdd2Thm`; `ArenaProofs`,
`Zdd2ProgProofs`, `ConcThm`; `PoolProofs`, `ZddProgProofs`, `BddProgProofs`, `Conc2Thm`; `ArenaSim`, `PoolStore`, `Zdd2Sim`, `ZddSim`, `BddSim`, `StoreThm`; `PanicProofs`, `LoadProofs`, `LoadThm`; `LockProofs`, `LockThm`; `WordProofs`, `WordThm`; `GrowthSpec` (the costs), `GrowthProofs`, `GrowthCalls`, `GrowthThm`; `StackForest`, `StackThm`, `StackZFits`, `StackZdd`, `StackZThm`, `StackB`, `StackBThm`; `Steps`, `StepsF`, `StepsZ`, `StepsB`, `StepsThm`; `Cost`, `CostF`, `CostL`, `CostThm`; `MatrixProofs`,
`MatrixThm`, `HandThm`, `AgreeThm`, `AlgebraThm`; `ZddProofs`, `ZddExact`, `ZddThm`; `ParserProofs`, `ParserPlaced`, `ParserThm`, `ZLoadThm`; `BddNode`, `BddCloset`, `BddThm`, `BddAnyThm`, `BddLawsThm`;
`DebugThm`, `VizThm`.  `*Thm.v` state the properties; `Properties_*.v` (generated by `tools/gen_props.py`) restate each as a
`Theorem`, prove it by `exact`, print its assumptions, and restate the non-vacuity `Example`s beside it.

### Conventions

* A Rust panic or non-termination is the value `None`; recursion that is not structural takes fuel and
  yields `None` when it runs out.  Theorems say `Some`, so they exclude panics and divergence.
* `Priority`/`usize` are `nat`, except in the parser, where the bound 2^64 is explicit.  The `u64` counters of
  closets are computed in unbounded naturals and again in 64-bit arithmetic (`BddCount64.v`, C77: with overflow checks
  and without); lengths, and occurrence counts that a constructor makes, are unbounded (they count objects in
  memory); loaded counts can be any word, and `WordModel.v` adds them in machine words (C88).
* Items are any type with a lawful total order (class `Ord`: Rust's `Ord`, `Eq`, `Hash` contracts).
* Hash maps/sets: content is a sorted association list; *iteration order* is an arbitrary permutation chosen
  by an oracle argument, per program point; theorems hold for all oracles, also different ones per call.
* Rayon `par_*` set operations are modelled by their sequential result in oracle order.
* serde: `Serialize`/`Deserialize` are modelled up to the serde data model (strings, maps as entry lists in any
  order); the wire format (JSON, …) is trusted to transport that.

## 2. Properties: what is proved and how

**zdd2 forests, C01–C18.**  Functional model over diagrams as values; invariant `zwf` (ordered and
zero-suppressed) and `Canon` (root, universe and counts fit together), preserved by every operation, so it
holds of every `Reach`able forest; meaning = set of paths; canonicity gives extensional equality.  C10–C13
are false of the code: `_refuted` witnesses, `_partial` theorems with conditions for exactness, and
`_exact_partial` theorems that say exactly what the code returns for all inputs (cuts of the item order:
`ends_along`, `same_rest`; `reordered` for what root translation leaves).  `settled` decides, from the two
families alone, exactly when translation leaves a side intact: "if" by tracking which items sink through which
branches, "only if" by a weight argument (`Zdd2Sink`: every other exchange arm loses a path or an item).  `resorted`
says, from the families alone, what translation makes of any side, settled or not (`Zdd2Resort`, by induction over the
diagram, one case per arm of `Node::branch`), and has one result; so `held` (AgreeSpec) gives the outcome of every zdd2 program.

**Arena and concurrency, C19, C20, C59.**  Rely/guarantee: the arena only grows, stays hash-consed and
well-founded; by induction over programs, in every interleaving a finished thread holds results denoting what
the functional model computes, so all functional theorems transfer; no thread panics, blocks or depends on the
schedule; fuel bounds depend on the script only.

**Loading, printing and panicking threads, C83** (`LoadThm`).  The zdd2 pool again with `Serialize`, `Deserialize` of any data and
`{:?}` as calls, of which some panic on data that no `Serialize` wrote.  `wpp` is the rely/guarantee transformer with panics
allowed under a condition (here: the call fails on values); the pool theorems are redone with an invariant on the forests
held (reachable or loaded).  Handles of loaded data by C22 and by ids ↔ diagrams.

**Structural hash, C68.**  For every function from bytes to numbers: equal shapes give equal strings (induction);
equal strings give equal shapes or two different byte strings with one hash value, by injectivity of `{:x}` and of the
0xff-terminated string encoding.

**The store, C81** (`StoreThm`).  Binary simulation (`sim`): a call run over two stores that already hold different things adds, in
both, the same diagrams, up to those one store had; so each (script, start values) has one finite footprint, and a
store's contents are the union of the footprints of its threads' work.  Size by counting diagrams (ids ↔ diagrams, C19).  Reading calls: their programs contain no `Add`.

**Growth, C82** (`GrowthThm`).  A third predicate transformer, `wpo F`: whatever the others do, the program interns
only diagrams in `F` or stored already.  For each operation `F` is the set of its results on pairs of sub-diagrams of the
operands (induction on the fuel); calls and scripts add up (`bounded n`: a list of at most `n` diagrams suffices).  The
costs (`GrowthSpec`) are functions of values only.  Not stated for zdd2: its `branch` rearranges nodes, so a result is not
built from results on sub-diagrams and no such bound in the operands' sizes is claimed.

**Texts, C21–C23, C42, C64–C67.**  Printer/parser as functions on character lists; round trips by induction
with explicit rest of input; `spells` characterises exactly the accepted texts and results.  C64 (family
preserved) and C66 (untrusted input) are false in general: refuted plus exact side conditions.

**matrix forests and trees, C24–C34, C16.**  Direct models with the oracle; exactness as set statements.  C29,
C30 (agreement of the two implementations, by induction over programs run in both, through the family a program stands for) and C32 are false in
general: refuted plus conditions.

**Values no constructor made, C84** (`HandThm`).  The same functions on every value of the enums (only: a hash set has no
duplicates), case by case; membership of vectors replaced by membership of the sets they spell (`has_set`).

**Loaded zdd data, C85** (`ZLoadThm`).  `zu_load` is the universe of any items and index entries (`entry_of`: the last entry
wins); constructors go through `read_as`; operations of two universes through `read_in`; the exact path families of C38, C39
lifted to any universes.

**Laws across calls, C69–C73** (`AlgebraThm`).  From the exactness specifications and extensional equality; splitting
and associativity of zdd2 (C69, C70) are false in general: refuted, with the exact condition proved (and the settled and item-disjoint cases).

**zdd, C35–C41, C61–C63.**  Raw diagrams, path semantics, invariant `zinv`; C38, C39 false in general: refuted, and the exact result for
all operands (`ZddExact`; `joined`, `paired` in `ZddSpec`), by induction over pairs of diagrams, then from positions to items.

**bowtie, C43–C58, C60, C80.**  Evaluation semantics of BDDs; builder as a history of calls; `valid_outfit`
over that history; closets reachable by `build` and successful selections.  C44, C52, C56, C60 false in general.
**The lock, C87** (`LockProofs`, `LockThm`).  Refinement of `LockModel` into `PoolModel`, for any client language: each fine
step is a stutter or one atomic step, taken at the lookup, the occupied entry, or the insertion into the id map; the
invariant counts guards and says what each phase knows of the store.  Progress without assuming which waiting thread is
served; termination by well-founded recursion on (program, phase), lifted to lists of threads.

**Words, C88** (`WordProofs`, `WordThm`).  The merge fold, by induction on the entries, then the same root translation and
node lemmas as for built forests, generalised from canonical forests to any map and any ordered diagram over it
(`translate_any`, `int_exact_items`, `prod_exact_items`); `resorted`, `met`, `same_rest` of `Spec` with the counts the
forests show.

**Renaming, C89 and C90** (`RenameSpec`, `RenameBase`, `RenameZdd2`, `RenameZdd`, `RenameBdd`, `RenameAny`, `RenameAny2`,
`RenameThm`).  C89: every function of the models, from the sorted maps up, commutes with a renaming that keeps `cmp`; by
induction on programs, with hash independence (C16, C41, ...) to compare runs under different hash orders.  C90: the family
a program stands for (C30) commutes with any injective renaming; zdd roots are literally equal because labels are positions
(restriction by canonicity); closets through the specifications of C47-C56.

**Equality of closets, C91** (`EqThm`).  Indexes are determined by their lookups; roots by the outfits, through C48 and the
canonicity of reduced ordered diagrams (C46); summaries by the root and the selections.

**Equality of zdd trees, C63** (`ZEqThm`).  The derived `==` (diagram ids, item list, index) against the combinations, for trees of any
two universes; with repeated items in the given combinations against what `traverse` shows (the labels of a reached tree are
indexed positions, so `traverse` loses nothing).

**Equality of trees, C92** (`TreeEqThm`).  The elements of a reached tree are a strictly sorted list (`tinv`), so trees with the
same elements differ at most in the variant; the operations are compared case by case.

**Growth of zdd2, C94** (`Growth2Spec`, `Growth2Proofs`, `Growth2B`-`H`, `Growth2Thm`).  Here `branch` may rebuild whole chains, so the
diagrams added are counted rather than listed.  `wpn n a p`: from the store `a` or any later one, with any interference, the writes of `p` itself add
at most `n` nodes; a step either keeps `n` or pays for the node it adds.  By induction over each program, with the size of a diagram bounded by
(number of priorities above it) times (number of paths): a branch costs at most 2 nodes per branch of its children, union and intersect 2 per branch of
the operands, product and translate_root pay (4L+2) resp. (2+2L) per level and path, `many` 2 per level for each row, and `canonical` is `many` on the
paths.  The costs of the calls are then stated on trees only (`f_cost`), and the pool invariant carries one credit per thread.

**Loaded forests, C95** (`ForestLoadSpec`, `ForestLoadThm`).  `says` (the text, after white space, spells a diagram that comes out as a
family: `parsed_as` of C64), `kept` (the last entry per item, in item order), `ranking` and `reads` (C93) describe the data; that what is
loaded is this, for any data, follows from the exactness of the parser (C23, C64), the map laws, and uniqueness of ordered zero-suppressed diagrams.
`C95_genuine` identifies the loaded forests that are reachable, by the canonical form (`Reach` and `Canon` agree).

**What is written, C93** (`TextSpec`, `TextThm`).  `plain` is the written text as a relation, with numerals that have no leading zeros;
the printed text is the only one (`plain_decimal`, `print_inj`).  `ranking` and `reads` say how the data of a forest is read back
without the library; proved from the canonical form of reached forests.

C80: the walk of `complete_outfit` takes the path that is first in item order (`walk_first`, induction on the full diagram).

**Any closet, C86** (`BddAnyThm`).  No invariant: `restrict` leaves the value unchanged wherever the item has the chosen
value (any diagram); `read_once` and `breduced` give the meaning of `complete_outfit`; `first_path` is the walk; `spelled` and
`mentions` are the loaded structure.

**Laws across closets, C74–C77** (`BddLawsThm`).  Equal histories of facts give the same boolean function, hence (C46
canonicity) the same root; counting by bijections between duplicate-free lists of outfits (filters for C75, products
for C76); C77 by induction over the node, against 64-bit additions.

**Debug texts and the visualizer, C78, C79.**  Both are shown injective: C78 by induction with the rest of the text explicit
(a line break never occurs inside an item's text), C79 by inverting `draws`; the page's list of combinations is read
back with `entries` and equals C36's answer.

**Outlines, C96** (`OutlineSpec`, `OutlineThm`).  `outline` is the layout as a relation on lines (with the literals written as strings);
the four printers have one common shape (`gfmt` of C78), shown by induction over the diagram to write the one outline; what the outline of a tree or
forest means comes from C36 and from the ranking of C93.

**Status methods, C97** (`StatusModel`, `StatusThm`).  The methods of both `ItemStatus` types, function by function; a list sorted by rank and then item is
the concatenation of its ranks' parts (induction), the rest follows from C41, C51, C52 and C89.

**Operations on loaded forests, C98** (`LoadOpsSpec`, `LoadOpsThm`).  `reported` reads a count off `occurrences`, `obtainable` is "reachable or loaded".
The exact theorems behind C11–C13 and C20 are redone with the universe's own counts in place of those of the trees; `canonical` then gives a
reachable forest.  Re-ordering that keeps the order inside each tree changes nothing (induction on `resorted`).

**Order of nodes, C99 and C100** (`NodeOrdModel`, `NodeOrdSpec`, `NodeOrdThm`).  The derived `Ord` of `Node` and `NodeId` and the serde form of `NodeId`,
over the pool of C59.  C99 from the arena invariant (hash-consed, append-only, children before parents).  C100: what is not forced is refuted by
constructing runs: any diagram can be built storing only what is below it, so of two diagrams that are not part of one another either can be stored first.
`NodeId::from` is no call of the client language of its own: `Node::branch` makes the same accesses, so it adds no states.

**Depth of recursion, C101** (`StackModel`, `StackForest`, `StackThm`).  In `Zdd2Prog` each nested call of a recursive function gets one
unit of fuel less, so fuel bounds the nesting; `StackModel` counts the rounds of the one loop apart (equal to `Zdd2Prog` when both are the same number:
`C101_is_the_program`).  Per node function: labels above `l` and below `n` need `n - l + 1` calls (`branch`: one more; `translate_root`: the labels of both
universes and three); then the universes of the operands and of the result have no more items than the operands' trees.  Other threads may store any node
whose children are stored, between any two steps.  Not modelled: bytes per frame, helpers that do not recurse.

**Depth of recursion in zdd, C102** (`StackZModel`, `StackZFits`, `StackZdd`, `StackZThm`).  The same over `ZddProg`.  For any two diagrams, ordered or
not, each step of union, intersect and product takes a level off one of them (measure: the sum of the heights); diagrams whose ways down are sublists of
one ascending list `L` need `length L + 1` calls (`fits`).  `hyper_tree`: `L` is the sorted list of the positions of the items, each as often as the
combination that lists it most; union stays inside `L`.  Parser: nesting of the parentheses of the text, by induction on the parser's own recursion.

**Depth of recursion in bowtie, C103** (`StackBModel`, `StackB`, `StackBThm`).  The same over `BddProg`; `to_node`, which recurses on its data, gets fuel
here.  Two measures for the dive of a binary operation: the sum of the levels, for any two diagrams (`by_levels`), and a list `L` of items that both are
within, for ordered ones (`by_items`: the leading item of the pair is dropped from `L`).  A builder folds `and` / `or` over diagrams within the items added.

**Accesses to the store, C104** (`StepsModel`, `Steps`, `StepsF`, `StepsZ`, `StepsB`, `StepsThm`).  `am N p Q`: at most `N` accesses on every path of the program
`p` *whatever the store answers*, so a bound at a fixed fuel is by induction on the fuel, with no reference to a store.  The number of rounds of a loop over what was read is bounded
through the post-condition `Q`.  `lep`: more fuel only replaces `OutOfFuel`, so the bound at the fuel that is enough (refinement theorems of C19, C20, C59) is a bound at every larger fuel.

**Cost of walking diagrams, C105** (`CostModel`, `Cost`, `CostF`, `CostL`, `CostThm`).  The recurrence `cost (d + 1) = 6 + 2 * cost d` for every function that walks diagrams,
at the depth that C102 / C103 proved enough.  Lower bound: a run of `p; f` that returns splits into a run of `p` and one of `f x` (`runs_in_bind_ret`), the pieces'
results are known from the refinement lemmas (`runs_wp`), and parity diagrams give two full pairs again after the split; the same for one
diagram, whatever it is, bounds the passes below by its unfolded branches (`CostL`).
For the zdd2 constructors `cost3 (d + 1) = 10 + 3 * cost3 d` bounds `Node::branch` and the union whatever the store answers; the operations of forests, which list and rebuild
the result's trees, have the bound of C104 only.

Every property is expressible in the model; none is `not_applicable`.

Violations found in the code (each has a `_refuted` theorem with a concrete witness): C10–C13 (zdd2 set
operations), C29, C30, C32 (matrix equality, agreement, `Tree::union`), C38, C39 (zdd intersect/product),
C44 (`!`, `^` on BDD nodes), C52, C56 (selection in closets without an outfit; earlier selections dropped),
C60 (node serialization), C92 (`Tree` equality), C64, C66 (parsing unordered or untrusted text), C69, C70 (zdd2 laws).

## 3. Trusted base

* Coq 8.16.1 kernel, and its VM for `vm_compute` in `Example`s and refutation witnesses.
* `Print Assumptions` of every property theorem says "Closed under the global context": no axioms.  (The
  checker's `library_axioms` list names seven `Coq.ssr.ssrunder` parameters of the standard library's module
  interface, loaded with `setoid_rewrite`/`lia`; no theorem depends on them.)
* The reading of the Rust source recorded in the comment of each definition; the Rust compiler and std, itertools, nom,
  serde, rayon, lazy_static as documented.
* `nom` combinators are modelled by what they accept and consume; error kinds are not distinguished.
* `usize` is 64 bits.

Not modelled: memory exhaustion and stack overflow; the `Debug` text of a panic for a missing
node (it would read the store again; C20/C59/C83 show no access misses, and C87 that no lock is ever poisoned); which waiting thread an `RwLock` serves (C87 holds for any); serde wire formats; rayon scheduling (only results); `Debug` output except that of nodes, zdd trees and zdd2 forests (C67, C78, C96); macros; the
file `bdd/node/apply.rs` (not compiled: no `mod` line) and code under `#[cfg(test)]`; yew itself
(`html!` is modelled as building the element it writes down) and the visualizer's `update`, which has one message
without effect; benches and tests.

## 3a. Validation of the model: the repository's own tests

The code cannot be run here, so the reading of the source is checked against the only recorded observations of
it: the values its authors assert.  `tools/rust_tests.py` transcribes every `#[test]` function of the workspace
(and the macro-generated ones of `weave/tests/forest`, once per implementation), statement for statement, into a
Coq computation on the model; `RepoPrelude*.v` say which model function each Rust name is; `RepoTests_*.v` hold the
507 results, each evaluated by the kernel to `true`.  They cover the zdd2 and matrix forests and trees, zdd trees,
the three arenas, both parsers, the serde token streams (forests, universes, zdd trees, a large closet diagram), BDD
operations, closets, the builder and its errors.  One test fixes the iteration order of a hash set
(`matrix/forest/mod.rs`, `unique_forest_into`); it holds of the model for one order and not for another, as C-properties
about order say.  These are tests of the model, not proofs of properties, and no theorem depends on them.  (The
test in `bdd/node/apply.rs` is not compiled, so it is left out.)

## 4. Seeded bugs

For every mutant: scratch copy, one edit of a model definition, full rebuild, plus evaluation of the property
*statements* (executable forms over corpora of inputs) on the edited model, to tell a broken proof script from a
false theorem.  `theorems_failed` in `seeded/LOG.jsonl` lists the theorems whose statement is false of the
edited program; where none was, the record says why (equivalent program) or which theorem was tightened.
