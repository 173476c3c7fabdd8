# Formal model of x7-geom: design

## How the code is modelled

* **Language.** Rocq/Coq 8.16. Each Python function becomes one small Gallina function; the comment
  above it cites the file and lines it models and says what is simplified.
* **Numbers.** Model functions are written once, over a type class `Num F` of arithmetic operations and
  comparisons (`theories/Base.v`), with further classes for square roots, trigonometry and floor. They are
  used at two instances:
  * `R`, Coq's real numbers: geometry theorems are about exact arithmetic. How far the doubles are from them is the subject of C79-C81, C85-C89.
  * `float`, Coq's IEEE 754 binary64 (`PrimFloat`): the same definitions run on doubles. It is used for
    theorems that hold on doubles without rounding (ordering, bounding boxes, end points), for bounds on the rounding error (C79-C81, C85-C89), for refutations, and for
    executing the model on values recorded in the repository's own tests (`Conformance.v`, `Conformance_units.v`: tests, not proofs).
  Theorems that only need an order are proved for every type with a total preorder, and then apply to both.
* **Exceptions** are values: `res A := Ok a | Raise e` with one constructor of `exn` per Python exception class.
  A division whose divisor may be zero goes through `pydiv`, which raises `ZeroDivisionError`.
* **Mutation.** A method that mutates `self` returns the new state. Where several references to one object
  matter (live points, copies that share a transform, generators that yield one mutable matrix) the model has
  an explicit heap of objects.
* **Histories** are lists of operations; properties of histories are proved by induction on the list.
* **External code** (not in /repo) is modelled by its documented behaviour, listed in the trusted base below.

## Files (rocq/theories)

| file | content |
|---|---|
| `Base.v`, `NumR.v`, `NumFloat.v` | exceptions, number classes, the two instances, Python helpers |
| `M_*.v` | the model, one file per area; no proofs |
| `S_*.v` | small independent specifications used in theorem statements |
| `L_*.v` | lemmas and proofs |
| `P_*.v` | the property theorems, with examples that meet their hypotheses; names ending in `_refuted` show that a documented or expected claim fails |
| `Z_assumptions.v` | `Print Assumptions` of every property theorem (generated) |
| `Conformance.v` | the model run on doubles against the values recorded in /repo/tests/x7/geom/test_model.td: 173 checks of curves, boxes, control points, paths, dumps and reprs |
| `Conformance_units.v` | the unit tests of test_geom.py, test_transform.py, test_bezier.py, test_utils.py and test_vec_field.py that state values, with the model in place of the program |

## Plan per property

Ids are those of properties.jsonl.

| id | modelled | how proved |
|---|---|---|
| C01-C03 | `Transform` as a state machine (matrix, cached inverse, stack); `M_transform` | invariant over operation lists; refutation by a concrete history through `rotate_about` |
| C04-C08 | matrices over R, `rotate_mat`, `scale_bbox`, `simplify`, `transform_width`, `transform_pts` | algebra over R, trigonometric identities |
| C09-C16 | `BBox` over any total preorder; `M_bbox` | case analysis on comparisons, induction on point lists for `grow`; convexity for `transformed` |
| C17-C18, C25 | operands as a sum type with dynamic dispatch; `M_vector` | exhaustive case analysis, real algebra, `atan2` defined from `atan` |
| C19 | heap of points, positions by fuel-bounded recursion with a rank argument for acyclic heaps; `M_points` | induction on rank, induction on histories |
| C20 | parser over a list of items; `M_vector` | induction, refinement to an independent grammar |
| C21 | cyclic sums over lists; `M_vector` | induction on lists |
| C22-C24 | `Line`; `M_line` | real algebra |
| C26-C29 | `utils.py`; `M_utils` | floor/mod lemmas, trigonometry, lists |
| C30-C34 | `bezier.py` except the solver; `M_bezier` | polynomial identities, convex combinations, induction on lists |
| C35-C38, C40-C42, C50 | curves and two-corner shapes as values; `M_elems`, `P_elems`, `P_p1p2`, `P_rrect`, `P_ellipse`, `P_addone`, `P_offset` | combination of the above |
| C39, sharing in C48 and C49 | elements as objects that refer to points, vectors, control points, transforms and each other; `M_eheap`, `S_eheap`, `L_eheap`, `L_eheap2`, `P_eheap` | Hoare logic for a set of objects the program spares, induction on programs |
| C43-C49 | trees of groups with insertion-ordered tables; `M_group` | induction on trees and histories |
| C51-C52 | `DumpContext` over strings, histories of calls; `M_dump`, `S_dump`, `L_dump2`, `L_dump5`, `P_dump` | injectivity of names over histories, induction on trees |
| C68 | the same (numbers are any type with a set of numbers whose texts are read back; `P_reprfloat` gives such texts for all finite doubles), and a reader for the part of Python that dumps are written in (characters to tokens, tokens to expressions, expressions to values); `M_dump`, `S_dump`, `L_dump`..`L_dump6`, `P_dump` | each repr is read as the value it was written for; induction on trees with the variables as invariant |
| C53-C54 | pens and colour tables; `M_colors` | case analysis |
| C55-C58 | animations, morphs; `M_anim`, `S_anim`, `P_time`, `P_panim`, `P_morph`, `P_multi` | real algebra, induction on histories and knot lists; trees via the replacement theorems of C46 |
| C59-C61 | frame schedules, canvas mapping, cropping; `M_frames`, `P_frames` | induction on steps, real algebra, integer arithmetic |
| C62-C63 | fields referring to numbered arrays, scipy's `RegularGridInterpolator` by its documented rule; `M_vecfield`, `S_vecfield`, `P_vecfield`, `P_lookup` | sums over index ranges, real algebra, induction on histories |
| C64 | builder on top of `M_group` | invariants over histories |
| C66 | drawing calls on numbered images (the PIL image is the list of calls made on it); `M_draw`, `S_draw`, `P_draw`, `P_marks` | induction on paths and trees, the tree lemmas of C47 |
| C67 | `as_curves` on trees; `M_group`, `S_curves`, `P_curves` | induction on trees |
| C69 | `do_pickle` on data made of elements, strings, transforms, tuples and lists, over the dump model; `M_pickle`, `S_pickle`, `L_pickle`, `L_pickle2`, `P_pickle` | each item gives lines that mean its value (from C68), induction on lists |
| C70 | `line`, `polygon`, `grid`, `scale_pt`, `unscale_pt`, `set_matrix` on the canvas of `M_draw`; `M_ctx`, `S_ctx`, `P_ctx` | calls are listed; segments are mapped to segments by an affine map; the history theorem of C01 |
| C71 | histogram, sorting, palette allocation, alpha threshold, indexing of frames; PIL's resize, alpha_composite of a pixel, quantize and conversion to an adaptive palette are parameters with stated contracts; `M_palette`, `S_palette`, `L_palette`, `P_palette`; `M_transp`, `P_transp` | counting invariant; sorted permutations are unique; induction on the entries |
| C72 | `==` on elements and `close` on control points, from `M_group` and `M_bezier`; `P_equal` | induction on trees against a mutual relation; dictionaries of equal size; triangle inequality |
| C73 | `bez_intersect` and `bez_intersect_new` over a library that answers with parameters; `M_intersect`, `P_intersect` | polynomial identity, filtering of lists, the theorems of C65 |
| C74 | `all_subclasses`, the matchers, the context manager of `assertMatchPlot`; `M_matchers`, `P_matchers` | transitive closure, case analysis; refutations |
| C75 | `display` as the list of printed lines; `M_display`, `P_display` | induction on trees; sorted permutations with distinct keys are unique |
| C76 | `round` on exact numbers from `nfloor`, and on points, vectors, boxes, control points; `M_round`, `S_round`, `P_round` | the specification (nearest multiple, even on ties) determines the result; the store invariant of C06 for dependent points |
| C77 | `untransform_pts`, `center`; `M_more`, `P_more` | history theorem of C01, induction on trees, box algebra |
| C78 | saving as a list of effects (files written, programs started); image operations are parameters that keep the number of frames; `M_save`, `P_save` | case analysis on platforms over C59, C61; refutations |
| C79 | the same definitions at both instances, compared; `S_float` (the value of a double), `L_float`, `P_float`, `P_float2`, `P_float5`, `P_float7` (`math.hypot` is any function off by at most k half-units), `P_float8`, `P_float9` (so are `math.sin` and `math.cos`), `P_float21` (splitting a curve anywhere) | each operation is the exact one rounded (Flocq); a relation "within (1+eps)^n - 1 of a size" closed under the operations; induction on chains, lists and histories of calls |
| C80 | the same, on whole numbers below 2^53, and comparisons on any finite doubles; `L_float2`, `P_float3` | whole numbers are representable; induction on histories of calls with the sizes of the entries as invariant |
| C81 | the same, at the ends and in the middle; `P_float4` | rounding keeps order and representable numbers; refutations by computation |
| C82 | reading and writing the numbers of a `BBox` by index, `sort`, `size`; `M_bbox`, `P_slots` | induction on histories of writes, order axioms |
| C83 | `repr` and `str` of points, vectors, lines, control points, boxes, transforms, pens; `M_repr`, `S_repr` (evaluation of the text), `L_repr`, `P_repr`, `P_reprfloat` (exact texts of finite doubles), `P_strelem` (elements) | induction on chains of bases; the lexer and parser lemmas of C68 |
| C84 | `image_info`, `image_info_palette`: the lines printed as data; `M_imginfo`, `S_imginfo` (relation between a row and what is shown), `P_imginfo` | induction on rows with the three states of the loop; counting of lines |
| C85 | `Line.parallel`, `intersection`, `segment_intersection` on doubles with whole coordinates; `P_float6` | numerators and denominators are exact (C80), a quotient of whole numbers keeps its sign and its side of 1 when rounded, error bounds for the point; `math.hypot` is any function that is not grossly wrong; refutations by computation |
| C86 | `AnimationCircular`, `AnimationSinusoidal`, `MorphMultiStep`, time functions on doubles, with sine and cosine as in C79; `P_float10`, `P_float11` | the relation of C79 for the angle, chords are no longer than arcs, the quotient of two rounded differences; rounding is monotone, and a rounded reciprocal multiplied back rounds to at most 1 |
| C87 | `Mesh`, `lookup`, `transform`, `normalized`, `smoothed`, `uniform` on doubles, the same definitions as C62 and C63; `P_float12`, `P_float13`, `P_float14` | the error calculus of C79 for coordinates, quotients and sums; products with exact 0 and 1 at the nodes; sizes by powers of two against overflow; the square root is rounded once |
| C88 | `min_rotation` on doubles (`M_fmod`): `%` of Python floats from C's `fmod`, which is taken to be exact; `P_float15` | the exact remainder is a double (Flocq's `format_REM_ZR`), so an exact `fmod` exists; monotone rounding for the range, the error of each of the four roundings for the distance, whole numbers without rounding; `C88_same_function` ties the definition to that of C26 |
| C89 | `leaf_paths`, `elem_paths` of `M_elems`, `M_group` on doubles against the same functions on the numbers the doubles stand for (`val_elem`); `P_float16`. Rounded rectangles are left out: their corners are merged when equal, so that rounding may change the number of points | a relation between a double and a real (`near`) that the sums and products keep, lifted to lists, control points, paths and results; induction on the tree with the relation on the matrix as the invariant |
| C90 | `plot`, `check_point_list`, `PlotViewer` and the two animated examples; matplotlib and tkinter are external: a picture is the list of plot calls, timers are a list of delays; `M_plot`, `P_plot` | induction on timer events and lists; the angle of the closure as an invariant (`C90_angles`), then C27 and C28 for every frame; a refutation for the default update function |
| C91 | the texts of nodes, edges and graphs and the lines `validate` prints; the arrays of control points and the plots of `debug=True` are left out; `M_bziprint`, `P_bziprint` | the linked arcs of C65 (`linked`), lengths of arcs as differences of the places where nodes are met, list equality place by place |
| C92 | `elem_bbox` of `M_group` on doubles against the same function on the numbers the doubles stand for (`val_elem`); the rounding of every sum and product and the absence of overflow; `P_float17`, and `P_float19` for the exact union of the boxes of a group | a relation between a double and a real (finite and `near`) that minimum, maximum, sums and products keep, lifted to points and boxes, then induction on the tree; the drawn picture by C47 and C89; a counterexample for shapes with holes (`C92_holes_refuted`) |
| C93 | `elem_paths` on doubles; the size of every intermediate number; `P_float18`; `elem_bbox` on doubles, and the distances of C89 and C92 from the sizes alone, `P_float20`. Rounded rectangles are left out (lengths by the C library); the constant of the ellipse, computed by the C library, is assumed to be at most 1 | magnitudes up to powers of two (`sized`) through sums, products and quotients; induction on the tree with the size of the matrix as the invariant; the errors by C89; a counterexample without bounds (`C93_unbounded_refuted`) |
| C94 | `make_rounded_rect_cps` on doubles; `P_float22`. `math.hypot` is any function exact along the axes (`axis_hypot`, met by the correctly rounded one, `C94_best_axis`), the constant of the quarter circle is within eight half-units. `leaf_paths` of a rounded rectangle on doubles; the frame of the element is affine | rounding is monotone and odd, so the offset from a corner is the radius exactly and the rounded sum stays between two doubles; errors of the handles bounded by half the side that is left; induction over the merging of equal points; the errors of drawing as in C89, and convexity of the exact curve |
| C07, C08, C17, C25, C44, C45, C56, C61-C63, C65, C74 (small functions) | `transform_width` of any transformer, `as_6tuple`, line equality, named points, `iter_elems_transformed`, `scaled`, meshes, `validate`; `P_width`, `P_small`, `P_iterx`, `P_graph` | real algebra, induction on histories and lists, counting of edges |
| C65 | graph construction and walk with the solver as an oracle, caller's control points as state; `M_selfix` | invariants of splitting, linking and walking; parity argument for the walk; refutations: purity, success with an unreliable solver |

## Trusted base

What has to be believed besides the theorems themselves:

1. **Coq's kernel** (8.16.1, with its virtual machine: some examples and refutations use `vm_compute`) and
   `coqchk`. No kernel check is switched off, there are no plugins, and the project declares no axiom,
   parameter, functor or module type.
2. **Axioms of the standard library**, as `Print Assumptions` lists them. `theories/Z_assumptions.v` prints them
   for every theorem named in MANIFEST.json; the file ASSUMPTIONS.md records the output, theorem by theorem.
   In short:
   * theorems about trees, tables, names, text, heaps, histories, and about any ordered number type: none;
   * theorems about real geometry: `ClassicalDedekindReals.sig_forall_dec`, `sig_not_dec` and
     `FunctionalExtensionality.functional_extensionality_dep` (the construction of the reals);
   * where pi, sines, continuity or `Rlist` lemmas are used also `Classical_Prop.classic`;
   * a few refutations and the transfer of order theorems to doubles: the primitive types and operations of
     `PrimInt63` and `PrimFloat`, and `FloatAxioms.eqb_spec`, `ltb_spec`, `leb_spec`;
   * C79-C81, C85-C89: these, the other specifications in `FloatAxioms` (`add_spec`, `mul_spec`, ... : the primitive operations
     are those of `SpecFloat`), those of `PrimInt63` in `Uint63`, and the axioms of the reals. Flocq is used as a library of
     proved lemmas; it adds no axiom.
3. **The reading of the code.** Each definition of the `M_` files cites the lines it stands for; that it says the
   same as those lines is checked by reading only (the code was not run). Simplifications are noted beside the
   definition. The important ones:
   * geometry is over exact real numbers. About rounding only C79-C81, C85-C89 (and the theorems stated for doubles) say
     something: vectors, points, dot and cross product, transforms and their products, areas, sampled and split curves,
     morphs and linear animations. Lengths and rotations are covered under assumed bounds on `hypot`, `sin` and `cos`; other trigonometric functions
     and matrix inversion on doubles are not covered. Sums and
     products are rounded one by one, left to right, as Python does; for `np.dot` this is an assumption (a numpy build
     that uses fused multiply-add rounds less often);
   * Python integers and floats are one number type; `int`/`float` differences in printed text are not modelled;
   * strings are strings of 8-bit characters; `repr` of a string follows Python's rule for ASCII;
   * objects are values unless a file says that it models references (`M_points`, `M_theap`, `M_eheap`,
     `M_vecfield`, images in `M_draw`);
   * arguments of a type that the annotations exclude are modelled only where a property speaks of them (operands
     in C17 and C18, constructor arguments in C09, the parser in C20, colours in C53);
   * Python's recursion limit appears as a bound `limit` or `fuel` where recursion is on live objects, and is
     proved sufficient or given as a hypothesis.
4. **External code**, taken by its documented behaviour:
   * `math`: `sqrt`, `hypot`, `sin`, `cos`, `atan2`, `floor` are the real functions (`hypot` on doubles is a
     hypothesis of C79, C85 and C86, `accurate_hypot` and `sane_hypot`, and so are `sin`, `cos` and `pi`, `accurate_trig`; in examples and
     refutations it is `sqrt(x*x + y*y)`, or the exact length correctly rounded);
   * numpy: `dot`, `array`, `linalg.inv` (raises `LinAlgError` for a singular matrix, otherwise the inverse),
     `interp`, `linspace`, `meshgrid`, `amax`;
   * tkinter's `after` calls its function once, and the main loop goes on after a callback that raised; `plotter.plot` and `canvas.draw` succeed (C90);
   * C's `fmod`, behind `%` of floats, by its definition: the exact remainder of the quotient cut to a whole number (`M_fmod`, C88);
   * scipy: `RegularGridInterpolator` by the multilinear rule, beyond the grid the rule of the outermost interval (`M_vecfield`); C87 takes
     the sum in the order of scipy's compiled two-dimensional case, and `linspace` in numpy's order;
   * the library `bezier`: `Curve.intersect` is a parameter. C65 holds for any answers; C73 assumes that answers are
     exact where it says so. `evaluate_multi` is the polynomial;
   * PIL: an image under drawing is the list of calls made on it (`M_draw`, `M_ctx`); `resize`, `quantize`,
     `alpha_composite` and `palette.getcolor` are parameters with the contracts stated in `S_palette`/`M_palette`;
   * `x7.testing` and `x7.lib`: `almostEqualFloat` and `match` are parameters; `t_range`, `iter_rotate` and `xy_flatten`
     are modelled from their use and the values recorded in the tests;
   * the Python reader that loads a dump is the one in `S_dump`: the part of Python's grammar that dumps use, written
     from the language reference.

### What is modelled

| file in /repo/x7/geom | model | left out |
|---|---|---|
| `geom.py` | `M_vector`, `M_points`, `M_bbox`, `M_line`, `M_round`, `M_dump` and `M_repr` (repr, str) | type-checking helpers |
| `transform.py` | `M_transform`, `M_theap`, `M_more`, `M_dump` and `M_repr` (repr), `M_display` (str) | nothing but type checks |
| `bezier.py` | `M_bezier`, `M_selfix`, `M_intersect`, `M_bziprint` | plotting (`bz_plot*`), printing of the walk (`__str__` of edges, `array_print`), the test functions at 529-630 |
| `colors.py` | `M_colors`, `M_dump` and `M_repr` (repr), `M_display` (str) | `__str__`/`__repr__` of `ColorsByShape` |
| `model.py` | `M_elems`, `M_group`, `M_builder`, `M_eheap`, `M_draw`, `M_dump`, `M_display`, `M_repr` (`__str__`) | sample models and `test_model` (1340-1540), debug drawing in `offset` |
| `drawing.py` | `M_draw`, `M_frames`, `M_ctx` | `text` (fonts), `show`, tests |
| `anim.py` | `M_anim`, `M_frames`, `M_palette`, `M_save` | the bytes of the files written, the demonstrations at 580-683 |
| `anim_simple.py` | `M_frames`, `M_save` | tests |
| `imagehelp.py` | `M_palette`, `M_imginfo`, `M_transp` | layout and fixed headings of `image_info*`, this file's own `rgb_to_transparent` (with its rewriting of the palette; the one of `anim.py` is modelled but for `two_color_flip`), tests |
| `utils.py` | `M_utils`, `M_plot` (`check_point_list`, `arc_animate`) | `arc_test` (plots) |
| `vec_field.py` | `M_vecfield` | `plot`, `animate`, `main` |
| `testing.py` | `M_pickle`, `M_matchers` | `fig_to_image`, `simple_dc`, `assertMatchImage` |
| `plot_utils.py`, `plot_viewer.py` | `M_plot` | `plot_show`, the widgets of the window |
| `platform.py`, `shell_tools.py`, `needs_test.py`, `typing.py` | none | everything: other programs, names of types |

Not modelled anywhere: the rounding done inside `math.hypot`, `math.sin` and `math.cos` (only assumed bounds), rounding of other trigonometric functions and of inverses, pixels that PIL or matplotlib paint, the
content of files, windows, other processes, and concurrency (the code has none).
