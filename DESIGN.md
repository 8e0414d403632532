# Formal model of Factorio-SAT in Rocq (Coq 8.16.1)

`/repo` is read as text only; it is never run. The model lives in
`rocq/theories/`, the list of English properties in `properties.jsonl`, the map
from property to theorem in `MANIFEST.json`, and the record of the mutation
experiments in `seeded/LOG.jsonl`.

## Layout of the development

* `Spec*.v` – small specifications written without reference to the model
  (value of a bit list, exactly-one, lexicographic order, Factorio feeding
  rules, valid layouts, steady flows ...).
* `M_*.v` – the model: one Gallina function per Python function, each with a
  comment citing file and lines. No proofs.
* `P_*.v` – proofs about the model.
* `T_*.v` – the property theorems only (statement + `exact lemma`), the concrete
  instances that show their hypotheses are met, and `Print Assumptions`.

## Modelling decisions

* A literal is a `Z`, a clause a `list Z`, a formula a `list (list Z)`;
  an assignment is `Z -> bool`; a negative literal reads the negated variable.
  "Satisfied" is `sat a cs = true`. Literal 0 never denotes a variable
  (DIMACS), theorems carry the hypothesis that literals are non-zero.
* Fresh variables: an allocator is a counter (`IDPool._next` returns
  1, 2, 3, ...; `make_allocator` likewise), threaded explicitly. A property
  "satisfiable over fresh variables iff P" is: every satisfying assignment obeys
  P, and every assignment obeying P can be changed *only above the counter* to
  satisfy the clauses.
* Python exceptions and failed assertions are `None` (or an `Err` constructor
  where the distinction matters).
* `while` loops whose termination is part of the claim are modelled with fuel
  and an explicit out-of-fuel result; the theorem excludes that result.
* Set iteration order is an arbitrary permutation, a parameter of the model.
* External code (SAT solvers, pysat's `CardEnc`, zlib, numpy,
  ctypes solver library) is a parameter with the contract stated as hypothesis
  of the theorem; for each contract an instance is exhibited so that it is not
  contradictory.

## Plan per property

| id | model | proof |
|---|---|---|
| C01–C12 | `util.py` encoders as functions to clause lists | induction on the width / list; both directions (soundness, extension by fresh variables) |
| C13, C14 | `cardinality.py` | induction on list length; C14 is false of the code: `_refuted` theorem for all literal lists |
| C15, C16 | `direction.py`, `tile.py` as finite data; JSON objects as a small datatype | case analysis, injectivity for all parameters |
| C17–C19 | `rotate.py` on list-of-list grids, tile transforms | list algebra; equivariance of the layout specification; C19 refuted |
| C20 | `stringifier.py` on code point lists | list induction over rows; table bijectivity |
| C21–C24 | `blueprint.py`, `blueprint_book.py` on entity lists | induction over row-major enumeration; C23 refuted by witness |
| C25–C29 | `network.py` | list/multiset reasoning; Benes by well-founded recursion; flow theorem over the rationals by extremal argument |
| C30–C38 | `calculate_optimal.py` store as association list, search loops with fuel, scheduler as nondeterministic step relation, file as a sequence of writes | invariants over histories; C36 assumes no monotonicity of the sizes; C37, C38 refuted |
| C39–C43 | `template.py` variable layout, neighbour lookup, enumeration loop with solver parameter, output parser | arithmetic, invariants; C41 refuted |
| C44–C51 | `solver.py` clause generation per tile and neighbour pair | clause lists characterised by predicates on a per-tile view, then induction along tunnels and paths; completeness by explicit assignment |
| C52–C54, C67–C69 | `belt_balancer.py` with `CardEnc` contract | lines of belts traced by induction, splitters counted by bijection, flows from C28; converse (C69) by colouring each cell with the belt of its line; C53, C54 refuted; what the ends with offsets do mean is C54_exactly (`T_Offsets.v`) |
| C61, C62 | enumeration and boundary flags of `solver.py` | equality of decodings; refuted on wrapping or narrow grids |
| C63–C66 | ends of networks, cross table, query of `calculate_optimal.py` | list and string induction |
| C55, C56, C70, C76 | `optimisations.py`, `rotate.py` | the lists compared are the upper half and the mirrored lower half (lexicographic order); equivariance of the network relation under the symmetries of a rectangle; mirror map on assignments; each clause family characterised by a pattern of the layout (`Spec_Pattern.v`), tunnels by induction over their cells |
| C77, C78 | `belt_balancer.py` | Spec_Edge: where the splitters of a placement stand; the node variables of a solution name the placement (counting lemmas), so the clauses are that condition; composed with C52/C69 |
| C57, C60, C71 | `belt_balancer_net_free.py` | flow numbers from the adder theorem (C06–C08) are carried along lines by induction; steady flows are unique by an extremal argument over the layout, so the numbers of the solution are the flow of the game; number theory; C71 refuted without its condition |
| C79–C81 | `belt_balancer_net_free_power_of_2.py` | each clause family as a rule on the tiles; the colours are sets joined at splitters, so that 2^k/size is a steady flow for each source and the uniqueness theorem of C57 gives every flow; the two outer columns are added in `Spec_Pow2.v` and the lines of the larger layout are traced; splitters are counted by their halves of odd parity |
| C82–C85 | `interchange.py` | the pattern clauses as in C56/C70; lines are followed back from the outputs with the colour transported along them (C51); for the cuts: the net number of lines of a colour through a closed cut equals inputs minus outputs on one side (`P_Flux.v`, `P_Cut.v`), so the counts hold in every solution and the encoder contract extends the assignment; that each layout comes once (C85) is `P_Once.v`, for any program whose layouts decide the direction variables |
| C86–C90 | `belt_balancer.py: main` with all its options, `set_nonempty_tiles` | what each option asks of a layout is in `Spec_Main.v`; `main_split` takes the formula apart into the calls, the exactness theorems of C53, C55, C56, C69, C70, C77, C78 say what each means, and the solution is extended call by call over the variables each allocates; `P_Connect.v`: in complete networks the layout decides every side literal, which gives C89 with `P_Once.v`; C90 follows every `None` of the model |
| C91, C92 | `belt_balancer_net_free_power_of_2.py: main` | `Spec_Pow2.v`: what rows joined by splitters are (`grouped`), independent of the colour variables; soundness counts the members of a colour, completeness colours the lines by their group and extends the solution over the variables of the cardinality encoder; C92 with `P_Once.v` |
| C93 | `interchange.py: main` with `--partial` | C82, C83 and C85 composed with what `set_nonempty_tiles` says of a layout (C87) |
| C94, C95 | `belt_balancer_net_free.py: main` for n = m | `Spec_Free.v`: flows as whole numbers of units on the belts, independent of the bit variables; soundness reads the flows off a model (C57), completeness writes the binary digits and carries of given flows; C95 with `P_Once.v` (the ends' auxiliary variables are the only ones a layout does not determine) |
| C96–C98 | `network.py: parse_network` and the command `parse` | `Spec_Parse.v`: the names of the lines at each splitter half, from `joined`; invariant of the scan: two cells have the same colour iff one line joins them; C97 by totality of each walk, except the walk back to the top row, which raises: an equivalence; C98 builds the wiring from the lines and turns flows of networks into flows of layouts and back; C97 refuted for the top row |
| C99 | `belt_balancer.py: main` followed by the command `parse` | composition: a realisation of a complete network has no gaps and no line past all splitters (`P_Parse9.v`), so C96–C98 apply to what C88 describes |
| C100, C101 | `network.py: calculate_cost, optimise_colours, calculate_network_size` | `Spec_Colours.v`: digits that differ, counted sides, truthful solver; the labels, differences and popcount clauses are satisfied exactly by the numberings with their cost (`P_Colours2.v`, `P_Colours3.v`); the loop by induction on the cost (`P_Colours4.v`); the example runs with a search proved truthful in `P_Dpll.v` |
| C102 | `network.py: simplify` | `Spec_Simplify.v`: steady flows, ends, what is left to simplify; each rewriting is a step on lists of inputs and outputs up to order (`P_Simplify.v`, `P_Simplify2.v`), each round of the model is such a step (`P_Simplify3.v`, `P_Simplify4.v`), steps compose (`P_Simplify5.v`); refuted where the assertion fails |
| C103 | `blueprint.py: read_tile` with its older formats, `blueprint encode` | `Spec_Legacy.v` says which tile a record describes; case analysis of the reader on every such record, induction over layouts; refuted for every belt |
| C104 | `render.py: HSVtoRGB, create_palette, render_solution` (paints) | rational arithmetic: the wheel of hues as six linear pieces, injective; `Spec_Palette.v` says which colour a cell has; refuted in part for --colour-count |
| C105 | `render.py: render_tile` as a function to draw commands | `Spec_Render.v` says when pictures look alike; case analysis over all pairs of tiles, for every time |
| C106 | `render.py: get_animation_length`, `tilemaps.py: Tilemap.render` | arithmetic modulo 8, 16 and 32; texture coordinates over rationals; refuted in part for machines |
| C107 | `render.py: render_attributes` (the lookup) | induction on the path; refuted for paths with a number |
| C108 | `render.py: main` as a state machine over histories of events | invariant of the cache of pictures by induction over histories; ranking argument for `--export-all` |
| C109 | the two programs without a network followed by the command `parse` | composition of C91/C94 with C96–C98: splitters connected on all four sides leave no gap and no missing belt, flows (or the columns of splitters) exclude a line past all splitters; the splitters are counted level by level (`P_ReadFree.v`) |
| C110 | `calculate_optimal.py: solve_balancer` (`M_Find.v`): the calls in order, the solver as a function that tells the truth and gives every variable a value, the reading of its model | the clause families of C52–C53, C56, C70, C77, C88 put together; well-formedness of all clauses (`P_OptOk.v`), allocation of all variables below the largest one, and a counting argument for the splitters at the edges so that no call raises (`P_Find*.v`); the claim that more room never hurts is refuted |
| C111 | the scheduler of C36 with solve_balancer for its solver | C110 makes every answer truthful for the sizes C34/C35 ask about; then C36 |
| C112 | `network.py: plot`, up to the names of points and their styles (`M_Plot.v`) | exact description of all arrows, from which the rest is read off; refuted for numbers of belts and for inputs whose colour is private to two splitters |
| C113 | `optimisations.py: shrink_underground`, which nothing calls (`M_Shrink.v`) | exact, as for C70, from the rules of tunnels |
| C114 | `belt_balancer_net_free.py: main` for n ≠ m | `Spec_Share.v`: two families of flows as whole numbers, forwards from the inputs and backwards from the outputs; soundness (`P_ShareSound.v`) reads them off a solution, completeness (`P_ShareExact.v`) writes their digits, the carries of the adders at splitters with an unused side and the values in tunnels; stated for solutions that connect facing splitters, since the others are not determined by the layout (C71_shares_refuted) |
| C115, C116 | `assets/fetch.py`: `decode_lua_data`, `get_recipes_for_variant`, `fetch_recipes` on parsed files (`M_Fetch.v`); the Lua parser, the copying of images and the search for the game are not modelled | `Spec_Fetch.v` says what tables and recipes mean by the fields they have; dictionaries by induction over the assignments; C116 refuted for the expensive difficulty when it borrows the normal table |
| C117 | `calculate_optimal.py`: `export_crosstable`, the text of the tables (`M_Optimal.v`: `store_text`) | `Spec_Table.v` is a reader of Markdown tables that knows nothing of the writer; the text is cut into lines and cells by induction, and the recorded sizes are shown to lie in the ranges |
| C118 | `template.py`: `CompositeTemplate` with functions among the entries, `call_ignoring_unused`; `solver.py`: the entries of a tile (`M_Alias.v`) | `Spec_Alias.v` says what is left of a template and of a tile without its functions; induction over the template; the local variables of a function and the names that `namedtuple` renames are part of the model |
| C119 | json's `dumps` and `loads` with default arguments, for documents with integers, halves and characters below code 256 (`M_Text.v`) | Reading is proved to invert writing by induction on the document, with the text that follows universally quantified (`P_Text.v`). `Spec_Text.v` says what documents (each key once) and characters are meant. NaN, exponents, other fractions and characters beyond 255 are not modelled. |
| C120 | `blueprint.py`: `encode_blueprint`, `decode_blueprint`, the dictionaries of `make_blueprint` and what `import_blueprint` reads of them; base64 (`M_Text.v`) | zlib is a pair of functions of which only `decompress (compress s) = Some s` is assumed, as a hypothesis of the theorems; base64 and json are modelled in full and their inversion is proved. `C120_identity` composes with C21. |
| C121 | `blueprint_book.py`: `main` between the lines it reads and the lines it prints (`M_Text.v`) | From C120 and an induction on the items. |
| C122 | `blueprint.py`: `import_blueprint`, `resolve_belt_input_directions` (`M_Blueprint.v`) | `Spec_Import.v` says, in the terms of the game, what an entity puts on which cell. The dictionary of the import is proved to hold exactly that, and the bending to be the rule of C21, for whatever list of entities is imported. |
| C123 | `render.py: render_tile`, `tilemaps.py: Tilemap.render, init` (sizes of the entries) (`M_Render.v`, `M_Quad.v`) | linear arithmetic over rationals, with the point and the cell universally quantified; which pixels of an image are transparent is not modelled |
| C124 | `render.py: render_attributes`, from the sizes of the lines on (`M_Show.v`); which lines a cell has and the pixels of letters are not modelled, floats are rationals | the scale times the largest width or height is at most 1, and 1 for one of them; induction on the lines of a cell; cells as in `Spec_Quad.v` |
| C125 | `util.py: StackTracingList` (`M_Show.v`); additions by `+=` and `append`, which are those that it traces; the columns of the printed lines are not modelled | induction on the sequence of additions; the order is shown sorted and a permutation |
| C126 | `render.py: render_attributes`, the search for an attribute in a cell (`M_Attr.v`); `int` is any function of a piece of a name; the splitting of names is not modelled | `Spec_Attr.v` defines paths; induction on the path; refuted for names with numbers |
| C127 | `render.py: render_grid` (`M_Attr.v`), floats are rationals | membership in the drawn lines, by the laws of floor and ceiling |
| C58, C72–C75 | `make_block.py` | satisfaction of each clause family as a rule on the layout; the colours count up along the steps, so that a counting argument (pigeonhole) gives one loop; conversely a loop is numbered from the corner; C72, C73, C74 refuted in part |
| C59 | `ipasir.py` as a state machine over call sequences | induction over histories |

Parts of the code that are not modelled: OpenGL, windows and video output (`render.py`),
copying of images (`assets/fetch.py: fetch_tilemaps`), argument parsing, worker processes, the actual SAT
search, zlib's compression (contract only), the styles of `stringifier.py`, the collection of stack traces (`util.py`).

## Trusted base

* Coq 8.16.1's kernel (and `coqchk`, which rechecks every module).
* `Print Assumptions` is run for the property theorems at the end of each
  `T_*.v`; every one answers "Closed under the global context". No axiom is
  declared in the development. `coqchk` on the whole library lists the axioms of
  every library module that is loaded, used or not: seven of them come from the
  standard library (`Coq.ssr.ssrunder.Under_rel`, an opaque module of the `under`
  tactic); no theorem here depends on them.
* The specification files `Spec_*.v`, and the reading of the Python code into
  `M_*.v`: each definition cites the lines it models and says where it
  simplifies. Nothing in `/repo` was run, so that reading is not tested.
* The contracts of external code, which appear as hypotheses of theorems and
  never as axioms: pysat's cardinality encodings (`honest` in `M_Oracle.v`: the
  clauses encode the count and use only fresh variables; `naive_honest` exhibits
  an instance), the SAT solver (a function that answers truthfully), JSON,
  zlib (inverse functions), the file system (sequences of writes).

Parts that are modelled, by source file: `util.py`, `cardinality.py`,
`direction.py`, `tile.py`, `rotate.py`, `stringifier.py`, `blueprint.py`,
`blueprint_book.py`, `network.py` (of `plot` the graph, not its styles), `template.py`, `solver.py`, `ipasir.py`,
`calculate_optimal.py`, `belt_balancer.py` (all but its argument parser and printing),
`optimisations.py`,
`belt_balancer_net_free.py`, `belt_balancer_net_free_power_of_2.py`,
`make_block.py` and `interchange.py` (all but their argument parsers and printing),
`render.py` and `tilemaps.py` (which images are drawn, with which colours; not OpenGL,
the loading of images, the angles of inserter arms, text and video output).

## Findings about the code

The following English claims are false of the code; each is proved so by a
theorem with the suffix `_refuted` (beside theorems that say what does hold):
C14 (`logarithmic_amo` is exactly-one), C19 (transforming machines), C23 (facing
belts in a blueprint), C37 (crash while saving), C38 (marks of the cross table),
C41 (y bounds of `iterate_tile_lines`), C43 (empty value line), C53 (lowest row
never used by the ends of a balancer), C54 (colour set on the wrong column), C59
(`set_learn`, `set_terminate` after close), C61 (wrapping grids lose layouts),
C62 (grids of width one), C64 (unterminated last line), C66 (blueprint export of
queries raises), C60 (grids of width one raise in the network-free balancer), C71
(network-free balancers with different numbers of inputs and outputs), C72
(`make_block` ignores the tunnel length), C73 (single loops lost on a torus), C74
(`--no-parallel` always raises), C55 (`--break-symmetry` together with ends that do not
take the whole height), C77 (`--edge-splitters` when a splitter joins inputs to outputs),
C97 (`parse_network` raises for a tunnel along the top row),
C100 (`optimise_colours` fails its own assertion on networks with one counted side),
C102 (`simplify` raises when one splitter's only output is the only input of another),
C103 (`read_tile` on the older formats of cells: directions are left as numbers),
C104 (`--colour-count` is compared with the number of colours), C106 (animations of machines
in layouts without splitters), C107 (`--show-raw` with a number in the path),
C110 (a single splitter between inputs and outputs is found on three columns only, so more
room makes a size impossible, although the search infers the sizes from each other),
C111 (the search for the shortest balancer of a network with one input and one output never
ends), C112 (drawings of networks), C116 (times of expensive recipes that borrow the normal ones).
