{"id": "C01", "title": "untransform undoes transform after any history", "statement": "After any sequence of Transform calls with affine arguments, untransform(*transform(x, y)) == (x, y) whenever the current matrix is invertible, and untransform raises LinAlgError when it is singular - provided rotate_about is never called while an inverse is cached. (rotate_about is the one mutator that does not drop the cached inverse, so the unrestricted claim is false: untransform; rotate_about; untransform uses a stale inverse.)", "quantifier": "every sequence of constructor/mutator/query calls on a Transform, every point", "why_tests_cant": "The failure depends on the order of cached queries and mutators; tests run a handful of fixed histories.", "anchors": ["x7/geom/transform.py:Transform.inverse", "x7/geom/transform.py:Transform.untransform", "x7/geom/transform.py:Transform.rotate_about", "x7/geom/transform.py:Transform.push", "x7/geom/transform.py:Transform.pop"]}
{"id": "C02", "title": "push/pop and with-blocks restore the matrix", "statement": "A pop (or the end of a with-block) puts the matrix back exactly as it was at the matching push, whatever balanced sequence of operations ran in between and also when it raised; pop on an empty stack raises EmptyStackError and changes nothing; entering a with-block without a push raises EmptyStackError.", "quantifier": "every nesting depth and every balanced sequence of operations between push and pop", "why_tests_cant": "Balanced sequences are unbounded in length and depth.", "anchors": ["x7/geom/transform.py:Transform.push", "x7/geom/transform.py:Transform.pop", "x7/geom/transform.py:Transform.__enter__", "x7/geom/transform.py:Transform.__exit__"]}
{"id": "C03", "title": "Mutators apply in call order; compose applies first", "statement": "Starting from any transform, after t.op1(...).op2(...)..., transforming a point equals transforming it with the old matrix and then applying translate/scale/rotate/rotate_ccw/rotate_about/compose_outer in call order; compose(u) instead applies u before everything else. Every transform built by the public mutators from affine arguments stays affine (last row 0 0 1), and preserves midpoints and affine combinations.", "quantifier": "every sequence of mutators with arbitrary real arguments, every point", "why_tests_cant": "Order errors show only for non-commuting pairs; arguments are continuous.", "anchors": ["x7/geom/transform.py:Transform.translate", "x7/geom/transform.py:Transform.scale", "x7/geom/transform.py:Transform.rotate", "x7/geom/transform.py:Transform.compose", "x7/geom/transform.py:Transform.compose_outer", "x7/geom/transform.py:Matrix.pre_dot_eq", "x7/geom/transform.py:Matrix.post_dot_eq"]}
{"id": "C04", "title": "Rotation direction and rigidity", "statement": "rotate(d) turns every point clockwise by d degrees and rotate_ccw(d) counter-clockwise, so one undoes the other (the docstring of rotate says counter-clockwise, which is false for every d that is not a multiple of 180); rotations compose by adding angles and preserve distances; rotate_about(d, c) leaves c fixed and preserves distances.", "quantifier": "every angle, centre and pair of points", "why_tests_cant": "Angles are a continuum; a sign error is invisible at 0 and 180 degrees.", "anchors": ["x7/geom/transform.py:Transform.rotate_mat", "x7/geom/transform.py:Transform.rotate_mat_ccw", "x7/geom/transform.py:Transform.rotate", "x7/geom/transform.py:Transform.rotate_ccw", "x7/geom/transform.py:Transform.rotate_about"]}
{"id": "C05", "title": "scale_bbox maps start onto target", "statement": "After Transform().scale_bbox(start, target) the four corners of start map to the same corners of target and every point of start maps into target; with keep_aspect the scale is equal in x and y, centre maps to centre, the image stays inside target and fills it in at least one direction. A start box of zero width or height raises ZeroDivisionError; without keep_aspect the transform has by then already been translated.", "quantifier": "every pair of boxes", "why_tests_cant": "Boxes are a 8-parameter continuum and the aspect case has two branches.", "anchors": ["x7/geom/transform.py:Transform.scale_bbox", "x7/geom/transform.py:Transform.canvas_fit"]}
{"id": "C06", "title": "simplify splits a transform faithfully", "statement": "For a transform whose four linear entries are each either zero or at least 1e-16 in size, xlate.compose(rotate) from simplify() equals the transform; for such a transform that is invertible, is_simple() is true exactly when axis-parallel rectangles map to axis-parallel rectangles; in the simple case the second factor is the identity.", "quantifier": "every affine transform", "why_tests_cant": "Holds for a 6-parameter continuum; near-zero clipping matters only in tiny regions.", "anchors": ["x7/geom/transform.py:Transform.is_simple", "x7/geom/transform.py:Transform.simplify", "x7/geom/transform.py:near_zero"]}
{"id": "C07", "title": "transform_width scales widths consistently", "statement": "transform_width(w) is w times the mean of the lengths of the images of the unit x and y vectors: it is linear in w, never negative for w >= 0, unchanged by any translation or rotation applied after, and multiplied by |s| under a uniform scale by s. The generic method inherited by other transformers gives the length of the image of a diagonal of length |w|: it agrees with the mean for everything that multiplies all distances alike, but not for unequal scales, although both are described as the average of the scales, and it can vanish.", "quantifier": "every affine transform and width", "why_tests_cant": "Continuum of matrices.", "anchors": ["x7/geom/transform.py:Transform.transform_width", "x7/geom/transform.py:Transform.scale_vals", "x7/geom/transform.py:Transformer.transform_width"]}
{"id": "C08", "title": "Transform objects: copies are independent, list transforms are pointwise", "statement": "copy() equals the original, starts with an empty stack, and no later operation on either one affects the other; transform_pts transforms each point as transform does, in order, with the same count, flattened or not; it raises on an empty list. Transform(t.as_6tuple()) equals t and moves points exactly alike, also on doubles.", "quantifier": "every transform, every later history, every list of points", "why_tests_cant": "Independence quantifies over all later histories.", "anchors": ["x7/geom/transform.py:Transform.copy", "x7/geom/transform.py:Transformer.transform_pts", "x7/geom/transform.py:Transform.set_matrix", "x7/geom/transform.py:Transform.as_6tuple"]}
{"id": "C09", "title": "BBox construction normalises", "statement": "BBox(x1, y1, x2, y2), BBox((x1, y1, x2, y2)) and BBox(Point(x1, y1), Point(x2, y2)) all build the same box, with xl <= xh and yl <= yh, whose edges are exactly the given coordinates; BBox(None) has no coordinates; other argument shapes raise TypeError. A tuple of a length other than 4 raises ValueError.", "quantifier": "every argument tuple (floats excluding NaN, or exact numbers)", "why_tests_cant": "Infinite argument space, several overloads.", "anchors": ["x7/geom/geom.py:BBox.__init__"]}
{"id": "C10", "title": "BBox union is a least upper bound", "statement": "a + b contains both operands and is contained in every box that contains both; + is commutative, associative, idempotent, with BBox(None) as identity; the order of a chain of + does not matter.", "quantifier": "all boxes, including BBox(None), and any number of operands", "why_tests_cant": "Algebraic law over all values.", "anchors": ["x7/geom/geom.py:BBox.__add__", "x7/geom/drawing.py:bbox_max"]}
{"id": "C11", "title": "BBox intersection is the common region", "statement": "A point lies in a.intersection(b) (edges included) exactly when it lies in both a and b; the result is BBox(None) exactly when no point is common; intersection is commutative, associative and idempotent and absorbs union.", "quantifier": "all pairs of boxes and all points", "why_tests_cant": "Universally quantified over points.", "anchors": ["x7/geom/geom.py:BBox.intersection"]}
{"id": "C12", "title": "contains / touches / overlaps algebra", "statement": "contains(b) holds exactly when every point of b lies in a (edges included) and then a.intersection(b) == b; touches(b) implies not overlaps(b) and an intersection of zero area that is not BBox(None); two boxes that share a point either touch or overlap, never both; overlaps is symmetric, touches is symmetric; for boxes of positive area overlaps means the intersection has positive area.", "quantifier": "all pairs of non-none boxes", "why_tests_cant": "The documented algebra is universally quantified; the corner cases are measure-zero.", "anchors": ["x7/geom/geom.py:BBox.contains", "x7/geom/geom.py:BBox.touches", "x7/geom/geom.py:BBox.touches_side", "x7/geom/geom.py:BBox.overlaps", "x7/geom/geom.py:BBox.contains_pt", "x7/geom/geom.py:BBox.touches_pt"]}
{"id": "C13", "title": "Documented BBox implications that fail", "statement": "The class docstring also promises: contains implies contains_pt of all corners; touches implies touches_pt of some corner; touches excludes contains; overlaps means non-zero common area; a partial overlap puts some corner of the other box inside; predicates on BBox(None) return False. Each of these is false for some boxes; the exact condition under which each holds is stated.", "quantifier": "all pairs of boxes", "why_tests_cant": "Finding the counterexample needs the universally quantified statement.", "anchors": ["x7/geom/geom.py:BBox"]}
{"id": "C14", "title": "grow builds the bounding box of any stream of points", "statement": "Starting from BBox(None), after growing by any non-empty sequence of points the box contains every point, each of its four edges is touched by one of the points, the result is independent of the order and of repetitions, and it never shrinks.", "quantifier": "every sequence of points", "why_tests_cant": "Unbounded histories.", "anchors": ["x7/geom/geom.py:BBox.grow"]}
{"id": "C15", "title": "expand never inverts a box", "statement": "b.expand(dx, dy) keeps the centre, changes the width to max(0, width + 2 dx) and the height likewise; expanding by a non-negative amount contains the original; expanding and shrinking back by the same amount is the identity.", "quantifier": "every box and every positive or negative amount", "why_tests_cant": "Continuum of amounts; the clamp matters only past half the width.", "anchors": ["x7/geom/geom.py:BBox.expand"]}
{"id": "C16", "title": "BBox.transformed encloses the image, tightly", "statement": "For an affine transform, every point of the box maps into b.transformed(t), and no smaller box contains the images of the four corners.", "quantifier": "every box, every affine transform, every point in the box", "why_tests_cant": "Quantifies over points and matrices.", "anchors": ["x7/geom/geom.py:BBox.transformed", "x7/geom/model.py:Elem.bbox"]}
{"id": "C17", "title": "Point and vector operators form an affine space", "statement": "P-P gives V, P+V and V+P and P-V give P, V+V and V-V give V, V*n, n*V and V/n give V; each coordinate by coordinate; P+P, V-P and P*n raise TypeError; p + (q - p) is at q, (p + v) - p == v, and the vector laws (commutativity, associativity, distributivity) hold; V/0 raises ZeroDivisionError. The vector of a point and the point of a vector convert back and forth without change.", "quantifier": "every combination of operand kinds and every coordinate", "why_tests_cant": "Dispatch table times a continuum.", "anchors": ["x7/geom/geom.py:Vector.__add__", "x7/geom/geom.py:Vector.__sub__", "x7/geom/geom.py:BasePoint.__add__", "x7/geom/geom.py:BasePoint.__sub__", "x7/geom/geom.py:BasePoint.sub_vector", "x7/geom/geom.py:BasePoint.v", "x7/geom/geom.py:Vector.p"]}
{"id": "C18", "title": "Vector geometry", "statement": "unit() has length 1 and the same direction and raises exactly for the zero vector; normal() is the clockwise perpendicular of equal length; dot/cross satisfy Lagrange identity, bilinearity and (anti)symmetry; rotate(d) preserves length, dot and cross, adds angles; (length, angle) determine the vector: x = length*cos(angle), y = length*sin(angle) with angle in (-180, 180].", "quantifier": "all vectors and angles", "why_tests_cant": "Continuum.", "anchors": ["x7/geom/geom.py:Vector.unit", "x7/geom/geom.py:Vector.normal", "x7/geom/geom.py:Vector.dot", "x7/geom/geom.py:Vector.cross", "x7/geom/geom.py:Vector.rotate", "x7/geom/geom.py:Vector.angle", "x7/geom/geom.py:Vector.length"]}
{"id": "C19", "title": "Relative and calculated points follow their base", "statement": "At every moment PointRelative.xy() is its base position plus (dx, dy) and PointCalc.xy() is the base of its base plus scale*(dx, dy), through chains of any depth and after any history of moves of any points; moving a point shifts every point relative to it by the same amount and leaves unrelated points alone; fromxy(x, y, base).xy() == (x, y); VectorRelative is always the current difference of its ends.", "quantifier": "every acyclic dependency chain and every history of set/setxy/restore", "why_tests_cant": "Chains and histories are unbounded.", "anchors": ["x7/geom/geom.py:PointRelative", "x7/geom/geom.py:PointCalc", "x7/geom/geom.py:VectorRelative", "x7/geom/geom.py:Point.setxy"]}
{"id": "C20", "title": "BasePoint.parse groups its input exactly", "statement": "parse succeeds exactly when the input splits into numbers taken two at a time, points, and tuples of the allowed length; the result in order flattens back to the input; otherwise it raises ValueError for the first offending item.", "quantifier": "every finite mixed sequence, both settings of allow_thruples", "why_tests_cant": "Unbounded mixed inputs.", "anchors": ["x7/geom/geom.py:BasePoint.parse"]}
{"id": "C21", "title": "polygon_area is the signed shoelace area", "statement": "polygon_area is unchanged by rotating the vertex list and by translation, changes sign under reversal, scales by the determinant under a linear map, is additive when a polygon is cut along a chord, equals width*height for a CCW rectangle, and is zero for fewer than three points.", "quantifier": "all vertex lists", "why_tests_cant": "Unbounded lists of reals.", "anchors": ["x7/geom/geom.py:polygon_area"]}
{"id": "C22", "title": "Line.closest is the nearest point", "statement": "closest(p) lies on the line, no other point of the line is nearer to p, the segment to it is perpendicular to the line; it raises ZeroDivisionError exactly for a zero direction.", "quantifier": "all lines and points", "why_tests_cant": "Minimality is universally quantified.", "anchors": ["x7/geom/geom.py:Line.closest"]}
{"id": "C23", "title": "Line.intersection is the common point", "statement": "intersection raises ParallelLineError exactly when the directions are parallel (or zero); otherwise the result lies on both infinite lines and is the only such point; swapping the lines gives the same point.", "quantifier": "all pairs of lines", "why_tests_cant": "Continuum; uniqueness.", "anchors": ["x7/geom/geom.py:Line.intersection", "x7/geom/geom.py:Line.parallel"]}
{"id": "C24", "title": "Line.segment_intersection", "statement": "If it returns (p, t_self, t_other) then p is on both segments at those parameters, both in [0, 1], and the internal assertion never fires; swapping the lines swaps the parameters; when the bounding boxes overlap in their interiors it finds every intersection of non-parallel segments and raises ParallelLineError exactly for parallel ones. When boxes only touch it returns None even though the segments may share a point (a corner-to-corner chain, or a T with an axis-parallel bar).", "quantifier": "all pairs of segments", "why_tests_cant": "Continuum; misses occur only on boundaries.", "anchors": ["x7/geom/geom.py:Line.segment_intersection", "x7/geom/geom.py:Line.segment_bbox"]}
{"id": "C25", "title": "Copies, fixed points and equality", "statement": "close is reflexive and symmetric; points, and vectors, are close exactly when nearer than max_delta; fixed() of any point is a plain Point at the current position that no later move changes; copy() of an unnamed Point is equal to it, copy() of a named Point drops the name and so is not equal; Vector equality is exact and bool(v) is non-zero-ness. Lines are equal exactly when their two points are; two lines through the same set of points need not be equal.", "quantifier": "all points, vectors, later histories", "why_tests_cant": "Universally quantified.", "anchors": ["x7/geom/geom.py:Point.copy", "x7/geom/geom.py:BasePoint.fixed", "x7/geom/geom.py:BasePoint.close", "x7/geom/geom.py:Vector.__eq__", "x7/geom/geom.py:Line.__eq__"]}
{"id": "C26", "title": "min_rotation is the least rotation", "statement": "min_rotation(t, s) lies in [-180, 180), differs from t - s by a multiple of 360, and no rotation congruent to it is smaller in size; adding multiples of 360 to either angle changes nothing.", "quantifier": "all angles", "why_tests_cant": "Modular arithmetic over a continuum.", "anchors": ["x7/geom/utils.py:min_rotation"]}
{"id": "C27", "title": "arc and circle lie on the circle", "statement": "Every point of arc(r, sa, ea, c) and circle(r, c) is at distance |r| from c; arc has steps+1 points, starts at the start angle and ends at the end angle (mod 360), moves counter-clockwise for ccw and clockwise for cw by less than 360 degrees in equal angular steps; equal angles mod 360 give a zero-length arc, so arc(r, 0, 360) is not a circle; circle has 361 points and closes.", "quantifier": "all radii, angles, centres, step counts", "why_tests_cant": "Continuum and unbounded step counts.", "anchors": ["x7/geom/utils.py:arc", "x7/geom/utils.py:circle"]}
{"id": "C28", "title": "arc2p joins two points by an arc of the given radius", "statement": "arc2p raises ValueError exactly when the points coincide or are further apart than 2r (ZeroDivisionError when side or steps is 0); otherwise the centre is at distance r from both points, on the side selected by the sign, and after the three leading points [e, centre, s] the arc starts at s and ends at e with every point at distance r from the centre.", "quantifier": "all radii, points, sides", "why_tests_cant": "Continuum.", "anchors": ["x7/geom/utils.py:arc2p"]}
{"id": "C29", "title": "Path helpers are rigid motions", "statement": "path_translate moves every point by the offset, path_rotate is clockwise and path_rotate_ccw counter-clockwise by the angle, each keeps the count and order; path_from_xy after path_to_xy gives the same positions; cross and plus return five points symmetric about the centre at distance r.", "quantifier": "all paths, angles, offsets", "why_tests_cant": "Unbounded lists.", "anchors": ["x7/geom/utils.py:path_rotate", "x7/geom/utils.py:path_rotate_ccw", "x7/geom/utils.py:path_translate", "x7/geom/utils.py:path_to_xy", "x7/geom/utils.py:path_from_xy", "x7/geom/utils.py:cross", "x7/geom/utils.py:plus"]}
{"id": "C30", "title": "bez samples the cubic", "statement": "bez(pts, steps) returns max(steps, 1) + 1 points; the first and last are exactly the end control points; the i-th is the cubic Bezier at i/steps; all lie in the bounding box (and every half-plane) of the four control points; affine maps commute with it.", "quantifier": "all control polygons, step counts, affine maps", "why_tests_cant": "Continuum and unbounded steps.", "anchors": ["x7/geom/bezier.py:bez"]}
{"id": "C31", "title": "bez_split preserves the curve", "statement": "For every t, the two halves returned by bez_split trace exactly the original segment on [0, t] and [t, 1]; the middle point is the curve at t; the outer handles are kept; at the middle the two handles are collinear; the kind of both ends becomes smooth whatever it was.", "quantifier": "all segments, all t, all parameter values", "why_tests_cant": "Polynomial identity over all parameters.", "anchors": ["x7/geom/bezier.py:bez_split"]}
{"id": "C32", "title": "Reversing control points reverses the curve", "statement": "reversed() swaps the handles and is its own inverse; reverse_list is its own inverse and the reversed list traces the same segments backwards.", "quantifier": "all lists of control points", "why_tests_cant": "Unbounded lists.", "anchors": ["x7/geom/bezier.py:ControlPoint.reversed", "x7/geom/bezier.py:ControlPoint.reverse_list"]}
{"id": "C33", "title": "ControlPoint.transform commutes with drawing", "statement": "For an affine transformer the transformed control points draw the image of the original curve and kind is kept; for a non-linear transformer a very-smooth point ends with dl == -dr and a smooth one with dl, dr opposite in direction and of unchanged lengths, or raises ZeroDivisionError exactly when the images of the handles coincide and are non-zero.", "quantifier": "all control points, all affine transforms, arbitrary non-linear maps", "why_tests_cant": "Continuum and arbitrary functions.", "anchors": ["x7/geom/bezier.py:ControlPoint.transform"]}
{"id": "C34", "title": "bez_path sampling", "statement": "bez_path of n control points has n*steps+1 points when closed and (n-1)*steps+1 when open (none if that has no segment), is continuous across segments, visits every control point in order at multiples of steps, and a closed path ends where it began.", "quantifier": "all lists, both closed flags, all steps >= 1", "why_tests_cant": "Unbounded lists.", "anchors": ["x7/geom/bezier.py:bez_path"]}
{"id": "C35", "title": "Curve bounding boxes enclose what is drawn", "statement": "Every point drawn for an ElemCurve, at any sampling density, lies in bbox() (with the drawing matrix applied to the box); bbox_int is the smallest box holding all centres and handle points; an empty curve raises IndexError.", "quantifier": "all curves, transforms, parameters", "why_tests_cant": "Continuum of points.", "anchors": ["x7/geom/model.py:ElemCurve.bbox_int", "x7/geom/model.py:Elem.bbox", "x7/geom/model.py:ElemCurve.paths"]}
{"id": "C36", "title": "elem.transform(m) draws like drawing under m", "statement": "For a curve, the transformed copy draws, under any drawing matrix, exactly what the original draws under that matrix composed with m; the result has identity xform, name, penbrush and closed are kept, and the matrix passed in (and its stack) is left unchanged. transform(identity) draws like the original.", "quantifier": "all curves, transforms and drawing matrices", "why_tests_cant": "Continuum; frame condition.", "anchors": ["x7/geom/model.py:ElemCurve.transform", "x7/geom/model.py:ElemCurve.paths"]}
{"id": "C37", "title": "Two-corner shapes transform correctly", "statement": "For a rectangle or ellipse whose combined transform keeps the axes or is invertible, and whose linear entries are zero or not tiny, the transformed copy draws, under any matrix, the line pieces the original draws under that matrix composed with m; name, penbrush and kind are kept, and a combined transform that keeps the axes gives an identity xform. A rounded rectangle with two sides does so when its combined transform is invertible and, if it keeps the axes, scales both of them equally. A singular transform that does not keep the axes raises LinAlgError and leaves the caller's transform alone. The radius follows the x scale alone, so after an uneven axis scale the corners are not the image of the original's.", "quantifier": "all shapes and transforms", "why_tests_cant": "Continuum, with a branch on near-zero entries.", "anchors": ["x7/geom/model.py:ElemP1P2.transform", "x7/geom/model.py:ElemP1P2.transform_pts", "x7/geom/model.py:ElemRectangleRounded.transform"]}
{"id": "C38", "title": "add_one keeps a closed curve and adds one point", "statement": "For a closed curve of at least two points add_one adds exactly one control point and the drawn closed curve is the same: one segment, a longest one, is replaced by its two halves and the others are untouched; repeated calls reach any larger count. It is false for open curves (a closing segment that is not drawn may be split, lengthening the drawn curve), for one-point curves, and the kind of the ends is reset to smooth; an empty curve raises IndexError.", "quantifier": "all control point lists, any number of repetitions", "why_tests_cant": "Unbounded lists; which segment is split depends on data.", "anchors": ["x7/geom/model.py:ElemCurve.add_one", "x7/geom/bezier.py:bez_split"]}
{"id": "C39", "title": "copy and restore implement undo", "statement": "copy() of a curve or two-corner shape makes a new element with the same value and changes nothing that existed; edits of what the copy is made of do not change the original. After c = e.copy() and any program that does not change the objects c is made of (other copies, restores, edits of e and of anything else allowed), e.restore(c) gives e back its shape, name, pens, closed flag and matrix, provided e has as many control points as c, each an object of its own (corners: two different absolute points) and the transform object was not changed in place: copy shares it with e, so such changes are not undone. Names of centres are lost, and a centre that followed another point no longer does. restore of a curve with a different number of points raises GeomInternalError after having already changed the name, penbrush, closed and xform.", "quantifier": "all elements and edit histories", "why_tests_cant": "Aliasing bugs show only under particular histories.", "anchors": ["x7/geom/model.py:ElemCurve.copy", "x7/geom/model.py:ElemCurve.fixed", "x7/geom/model.py:ElemCurve.restore", "x7/geom/model.py:ElemP1P2.copy", "x7/geom/model.py:ElemP1P2.restore", "x7/geom/model.py:Elem.restore"]}
{"id": "C40", "title": "Two-corner shapes: bounding box editing and drawn extent", "statement": "bbox_int() of a rectangle, rounded rectangle or ellipse is the box of its two corners; after bbox_int_update(b), bbox_int() == b; a rectangle draws a closed path of five points; an ellipse and a rounded rectangle stay inside that box.", "quantifier": "all shapes and boxes", "why_tests_cant": "Continuum.", "anchors": ["x7/geom/model.py:ElemP1P2.bbox_int", "x7/geom/model.py:ElemP1P2.bbox_int_update", "x7/geom/model.py:ElemP1P2.points", "x7/geom/model.py:ElemRectangle.paths"]}
{"id": "C41", "title": "Ellipse control points", "statement": "make_ellipse_cps gives four smooth control points at the axis ends, with handles parallel to the box sides, symmetric about the centre; the curve stays within the box of half-axes r_x, r_y, meets the true ellipse at the axis ends and at the 45 degree points, never runs inside it and nowhere differs from it by more than 0.03 percent.", "quantifier": "all centres and radii", "why_tests_cant": "Continuum.", "anchors": ["x7/geom/model.py:make_ellipse_cps", "x7/geom/model.py:make_ellipse_p1p2_cps"]}
{"id": "C42", "title": "Rounded rectangle control points", "statement": "make_rounded_rect_cps with a radius below half the shorter side gives eight control points, two per corner at distance radius from it, none duplicated; with radius zero it gives the four corners; with a larger radius the radius is clipped to half the shorter side and duplicates are merged; every point and handle lies in the rectangle; every piece of the outline runs along a side or rounds a corner with the given radius. Duplicates do remain for a rectangle without width.", "quantifier": "all rectangles and radii >= 0", "why_tests_cant": "Continuum with clipping branches.", "anchors": ["x7/geom/model.py:make_rounded_rect_cps"]}
{"id": "C43", "title": "Group.add keeps names unique", "statement": "After any sequence of add calls on a group built from a list, element names are pairwise distinct, contain no dot, and each stored element carries its key as its name; add never raises the duplicate-name error, always terminates, keeps all earlier elements and their order, and appends exactly one; it raises ValueError exactly when the name has a dot, fixname is off and the name is not already taken (or the part after the last dot is fine otherwise).", "quantifier": "every sequence of add calls with arbitrary names", "why_tests_cant": "Unbounded histories of names.", "anchors": ["x7/geom/model.py:Group.add"]}
{"id": "C44", "title": "lookup finds exactly the nested elements", "statement": "lookup of the dotted path of names returns the element stored along that path; it raises KeyError for an unknown head and ValueError when the path goes through a non-group (including ElemWithHoles); every leaf reported by iter_elems below plain groups can be looked up by its reported name without the root. After any calls of add_pt, lookup_pt gives the first point added under a name; add_pt raises exactly for a dotted or used name.", "quantifier": "all group trees and all tags", "why_tests_cant": "Trees of unbounded depth.", "anchors": ["x7/geom/model.py:Group.lookup", "x7/geom/model.py:Group.iter_elems", "x7/geom/model.py:ElemWithHoles.lookup", "x7/geom/model.py:Group.add_pt", "x7/geom/model.py:Group.lookup_pt"]}
{"id": "C45", "title": "iter_elems yields every leaf once with its accumulated transform", "statement": "Deep iteration yields each leaf exactly once, in drawing order, and at the moment of the yield the matrix is the caller matrix composed with the xforms of all enclosing groups; after exhaustion the matrix and its stack are as before. All yielded tuples carry the same matrix object, so collecting them into a list shows the final matrix in every entry; abandoning the iteration early leaves the matrix pushed. The names are the names on the way down joined by dots, and below plain groups lookup finds the leaf by that name without the root; below an ElemWithHoles the reported names contain an empty component and cannot be looked up. iter_elems_transformed yields each direct part once, in order, as its transform under the caller's matrix composed with the whole's own, named from the root down, stopping at the first part whose transform raises, and leaves the matrix as it was; drawing a yielded curve or group draws the part as within the whole.", "quantifier": "all trees", "why_tests_cant": "Unbounded depth; generator scheduling.", "anchors": ["x7/geom/model.py:Group.iter_elems", "x7/geom/model.py:ElemWithHoles.iter_elems", "x7/geom/model.py:Elem.iter_elems", "x7/geom/model.py:Group.iter_elems_transformed", "x7/geom/model.py:ElemWithHoles.iter_elems_transformed"]}
{"id": "C46", "title": "Group.replace", "statement": "replace returns the number of elements replaced in the whole tree; afterwards the old element is gone and everything else is kept in order; each replacement stands at the end of the drawing order of its group. It works exactly when every group has at most one match, the name of the replacement is free there and has no dot, and no ElemWithHoles has to be searched; otherwise it raises. A name clash raises ValueError after the old element was already deleted; a group containing an ElemWithHoles raises NotImplementedError.", "quantifier": "all trees and elements", "why_tests_cant": "Unbounded trees; exception points.", "anchors": ["x7/geom/model.py:Group.replace"]}
{"id": "C47", "title": "Group bounding box and paths", "statement": "Drawing any tree leaves the drawing matrix and its stack as they were, also when it raises, and depends on nothing else in the drawing context; a tree without holes draws the paths of its visible leaves in insertion order, each under the product of the transforms around it, and a hidden group draws nothing. The box of a group is the least box around the boxes of its members, whatever their order or names; an empty group raises GeomInternalError. Everything a tree draws lies in its bbox().", "quantifier": "all group trees", "why_tests_cant": "Unbounded trees.", "anchors": ["x7/geom/model.py:Group.bbox_int", "x7/geom/model.py:Group.paths", "x7/geom/model.py:Group.control_paths"]}
{"id": "C48", "title": "Group copy, restore and transform", "statement": "copy() succeeds exactly for trees without filled groups, open filled shapes and open two-corner shapes (otherwise AssertionError) and the copy draws the same; a copied or transformed group is always open, so a filled closed group cannot be copied or transformed. transform(m) of a group or of a shape with holes does not change m and draws under d what the original draws under d.m. copy() and transform() make a new group with a new transform object and the same member objects, and change nothing that existed. Whatever the program does to other objects than the copy and its transform, restore(copy) brings back name, pens, member table, points and transform but not closed, and changes nothing else: edits of members are not undone. After restore the group shares the transform object of the copy, so an in-place change after a first undo is not undone by a second. Adding an element to a group enters it under its name, keeps every other entry, gives the element that name and nothing else, and changes no other object.", "quantifier": "all groups", "why_tests_cant": "Aliasing and flag combinations over histories.", "anchors": ["x7/geom/model.py:Group.copy", "x7/geom/model.py:Group.transform", "x7/geom/model.py:Group.restore"]}
{"id": "C49", "title": "ElemWithHoles", "statement": "When filled, the first path is one fill path running along the outside and every path of every hole (back to the end of the outside after each), then the outside is stroked once and a hole made of k paths k times over; when unfilled each path is stroked once. An outside not drawn as one path raises AssertionError. bbox_int is that of the outside: ValueError without holes, AssertionError when a hole leaves it; it ignores the outside's own transform, so the picture can lie outside bbox(). restore leaves the holes of self instead of those of the copy. copy() makes every part anew. Making a shape with holes gives its pens to the outside and to every hole, which keep all else, and changes no other element.", "quantifier": "all shapes with holes", "why_tests_cant": "Unbounded lists of holes.", "anchors": ["x7/geom/model.py:ElemWithHoles.paths", "x7/geom/model.py:ElemWithHoles.bbox_int", "x7/geom/model.py:ElemWithHoles.restore", "x7/geom/model.py:ElemWithHoles.iter_elems"]}
{"id": "C50", "title": "Curve offsetting", "statement": "offset_pt moves a vertex with two handles along their bisector to a point at distance |offset| from both adjacent lines (unless limited); a straight vertex moves exactly |offset| along the normal; a vertex with a zero handle does not move, so a polygon drawn without handles is not offset at all; the displacement is never more than max(|offset|, 100). When limited the displacement is always +100 along the bisector, whatever the sign of the offset, so the vertex can end on the wrong side. offset keeps the number and kinds of points and offset by 0 gives the transformed curve. The curve is walked backwards just when the polygon of its points and handles has negative area, so that it always runs counter-clockwise, and the ends of the handles are offset like corners of that polygon.", "quantifier": "all vertices and offsets", "why_tests_cant": "Continuum.", "anchors": ["x7/geom/model.py:ElemCurve.offset_pt", "x7/geom/model.py:ElemCurve.offset"]}
{"id": "C51", "title": "DumpContext variable naming", "statement": "Over any history of set_var calls equal reprs get the same name, different reprs get different names, and a name once given never changes; with use_vars off the repr itself is returned; output lists every variable once. output() is not idempotent: each call prepends another \"model = \" to the first line, and it raises IndexError when nothing was appended.", "quantifier": "every history of set_var / append / extend / add_imports / with / output calls with arbitrary prefixes", "why_tests_cant": "Histories are unbounded, and whether two prefixes can ever produce the same name depends on all prefixes and counts.", "anchors": ["x7/geom/model.py:DumpContext.set_var", "x7/geom/model.py:DumpContext.output"]}
{"id": "C52", "title": "Dump nesting", "statement": "Dumping any element onto any context succeeds. Indentation depth after any dump is what it was before, every line of a nested element is indented one level deeper than its parent, each part ends with a comma, and the number of opening lines equals the number of closing lines.", "quantifier": "all element trees", "why_tests_cant": "Unbounded trees.", "anchors": ["x7/geom/model.py:DumpContext.__enter__", "x7/geom/model.py:DumpContext.__exit__", "x7/geom/model.py:Group.dump", "x7/geom/model.py:ElemCurve.dump"]}
{"id": "C53", "title": "Pen and brush rules", "statement": "stroke_width is the pen width when positive, the transformed absolute width when negative or zero, None without a pen; filled/stroked hold exactly when a brush/pen is present; replace(width) changes only the width and raises ValueError exactly when both pen and width are given; replacing never removes a pen or brush.", "quantifier": "all pens, brushes and transforms", "why_tests_cant": "Decision table over continuous widths.", "anchors": ["x7/geom/colors.py:PenBrush.stroke_width", "x7/geom/colors.py:PenBrush.replace", "x7/geom/colors.py:PenBrush.__init__", "x7/geom/colors.py:Pen.replace"]}
{"id": "C54", "title": "Shape colour tables", "statement": "Indexing PensByShape / ColorsByShape succeeds exactly for the five kinds; make(draft=True) gives unfilled thin strokes for all five; make(draft=False) gives the documented stroke/fill combination for each kind; PensByShape without arguments has a black pen of width 1 and no fill for all five; replace_width changes the width of every pen and nothing else.", "quantifier": "all colours, widths and kind strings", "why_tests_cant": "Strings and colours are unbounded.", "anchors": ["x7/geom/colors.py:PensByShape", "x7/geom/colors.py:ColorsByShape"]}
{"id": "C55", "title": "Point animations depend only on t", "statement": "The position update(t) gives an animated point depends only on the last t (and the targets), whatever updates of the same holder came before, as long as the animated points are plain points and no target hangs on an animated one; other points stay. Linear is at the start for t=0, at the target for t=1, on the line through both; Sinusoidal stays on the segment and returns after each period; Circular stays at |radius| from the start. Points that are not plain raise ValueError at construction. A target that is itself animated breaks this.", "quantifier": "all histories of update(t)", "why_tests_cant": "Unbounded histories of real times.", "anchors": ["x7/geom/anim.py:AnimationLinear.update", "x7/geom/anim.py:AnimationSinusoidal.update", "x7/geom/anim.py:AnimationCircular.update", "x7/geom/anim.py:AnimationHolder.update"]}
{"id": "C56", "title": "Time functions", "statement": "interpolate passes through its knots, is constant outside them, stays between neighbouring values; ramp_up is 0 up to start, 1 after end, monotone, and ramp_down is 1 - ramp_up; hide_if returns None exactly below the threshold. sin/cos/periodic multiply t by (2 pi f + offset) instead of adding the offset, so their documented formula holds only for offset 0 (or t = 1 mod period). identity returns its argument, a number, a pair or None alike; identity_xy agrees with xy(identity, identity) on numbers and changes no pair.", "quantifier": "all knot lists and times", "why_tests_cant": "Continuum.", "anchors": ["x7/geom/anim.py:Animation.interpolate", "x7/geom/anim.py:Animation.ramp_up", "x7/geom/anim.py:Animation.ramp_down", "x7/geom/anim.py:Animation.periodic", "x7/geom/anim.py:Animation.hide_if", "x7/geom/anim.py:Animation.identity_xy"]}
{"id": "C57", "title": "Morph interpolates control points", "statement": "A forced Morph makes both curves the same length without changing how they look when closed, and puts the morphed curve in place of the source in the model. update(t) puts every control point and handle at the affine combination (1-f)*source + f*target with f = t_func(t), independent of earlier updates: f=0 shows the source and f=1 the target (the kinds of the points stay the source's); f None parks everything at (1e6, 1e6) and a later update brings it back. Without force a length mismatch raises MorphError, as does a source that is not in the model. restore puts the source back (at the end of its group) provided that no other element equals the morphed curve at that moment; otherwise that element is overwritten too.", "quantifier": "all curves, all histories of update", "why_tests_cant": "Unbounded histories.", "anchors": ["x7/geom/anim.py:Morph"]}
{"id": "C58", "title": "MorphMultiStep hits each key shape", "statement": "With step times in order, update never divides by zero; it holds the first key curve before its time and the last from its time on, interpolates every control point and handle linearly between neighbours, shows exactly the key curve at each step time when the times differ, keeps every coordinate within the range of its key values and is Lipschitz continuous across steps, independent of earlier updates. The key curves get the same number of points; closed ones look the same as before and, forced, start at the point nearest the lower left corner of their box, which for open curves changes the drawing.", "quantifier": "all step lists and times", "why_tests_cant": "Unbounded lists and continuum.", "anchors": ["x7/geom/anim.py:MorphMultiStep.update"]}
{"id": "C59", "title": "Frame schedule", "statement": "The animation Builder makes exactly one image per step, in order; image i is the drawing of the model after every animation has been applied at each of the step times 0..i; when the animations touch different parts it is what drawing step i alone would give; if any step raises, the images of the previous build are kept. SimpleAnimation.animate calls the draw function at steps+1 times evenly spaced from t_low to t_high (exactly t_high only without rounding), but stores every frame twice; zero steps raise ZeroDivisionError and an exception in the draw function stores that frame once and stops.", "quantifier": "all step counts", "why_tests_cant": "Unbounded.", "anchors": ["x7/geom/anim.py:Builder.build_all", "x7/geom/anim_simple.py:SimpleAnimation.animate"]}
{"id": "C60", "title": "Canvas mapping", "statement": "canvas_fit maps (x, y) to (zoom*x + zx, height - (zoom*y + zy)), flipping y; the SimpleAnimation drawing matrix maps draw_bbox onto the image exactly when draw_bbox is symmetric about y = 0.", "quantifier": "all sizes, zooms, boxes", "why_tests_cant": "Continuum.", "anchors": ["x7/geom/transform.py:Transform.canvas_fit", "x7/geom/anim_simple.py:SimpleAnimation.next_step"]}
{"id": "C61", "title": "Autocrop stays inside the image", "statement": "The crop box computed by save_animation contains the union of the boxes of the frames grown by 16 and clipped to the image, and is never inverted when the frame boxes lie inside the image; a frame without any drawn pixel makes it raise (its box is None). crop_to_pixels always returns an ordered box of pixels next to the mapped corners. The duration given to the file is within one millisecond of the one asked for. scaled(k) divides the sides of the first frame by k rounding down (a side shorter than k vanishes) and raises for k = 0 or without frames.", "quantifier": "all frame boxes and sizes", "why_tests_cant": "Unbounded.", "anchors": ["x7/geom/anim.py:Builder.max_bbox", "x7/geom/anim.py:Builder.save_animation", "x7/geom/drawing.py:DrawingContext.crop_to_pixels", "x7/geom/drawing.py:bbox_max", "x7/geom/anim.py:Builder.scaled"]}
{"id": "C62", "title": "Vector field algebra", "statement": "normalized() divides the field by its greatest length, so that the longest vector of the result has length 1 and all directions are kept, and doing it twice changes nothing - for every field with a non-zero vector; a field of zeros becomes a field of NaN, smoothed too. scaled(s) multiplies each component. smoothed() replaces each vector by a weighted mean of its neighbours and normalizes the result: each mean lies between the extremes of the neighbours, depends on the neighbours alone, and a constant field stays constant up to normalization. The neighbourhood is lopsided (two before, one after), so smoothing does not commute with mirroring the field. copy(), normalized(), smoothed() and scaled() each make a new field on the same mesh with arrays of its own and leave all fields and arrays that were there alone. Two fields are equal exactly when their meshes and all their entries are equal. The nodes of a mesh are evenly spaced from edge to edge, the last exactly on the edge also on doubles; uniform(m) makes a new field with components between -m and m, each from a random number of its own so that none is left out, and leaves all others alone.", "quantifier": "all mesh sizes and fields", "why_tests_cant": "Unbounded grids.", "anchors": ["x7/geom/vec_field.py:VectorField.normalized", "x7/geom/vec_field.py:VectorField.scaled", "x7/geom/vec_field.py:VectorField.smoothed", "x7/geom/vec_field.py:Mesh", "x7/geom/vec_field.py:VectorField.uniform"]}
{"id": "C63", "title": "Vector field lookup", "statement": "On the grid nodes lookup(x_i, y_j) is the stored vector (vx[i,j], vy[i,j]); between nodes it is the bilinear blend of the four surrounding nodes (beyond the mesh that of the border cell, extrapolated), so fields given by a linear function are reproduced exactly. The first lookup fixes which arrays are read: entries written into those arrays later are seen by later lookups, but giving the field another array is not, and so a field and its copy can answer differently. plot() and quiver() show the field mirrored on the diagonal of the grid. transform_pts on a vector field always raises because its points are pairs, not triples. transform_width is the distance between the moved ends of a diagonal of that length; a constant field keeps widths.", "quantifier": "all grids, points and histories", "why_tests_cant": "Histories.", "anchors": ["x7/geom/vec_field.py:VectorField.interp_coords", "x7/geom/vec_field.py:VectorField.lookup", "x7/geom/vec_field.py:VectorField.transform_np_pts", "x7/geom/transform.py:Transformer.transform_pts"]}
{"id": "C64", "title": "GroupBuilder", "statement": "A shape call on a builder either raises and changes nothing, or adds exactly one element at the end of that builder's group: with the pens of the requested kind (or the given PenBrush), closed as asked (as filled when not said), an identity transform, and a new dot-free name (the given one if it is free). It raises exactly for an unknown kind (ValueError), an open filled or two-corner shape (AssertionError) or a dotted name (ValueError). point() succeeds exactly for a new dot-free name. group() adds an empty group and hands out a builder for it. After any sequence of calls on any builders all names are unique and dot-free, every builder still has its group, and nothing made earlier is altered, moved or removed; what a call returned is found by lookup. rotate_about_center keeps the centre of the box of a two-corner shape; for a curve it may not.", "quantifier": "all sequences of builder calls on all builders handed out, all names, pens, shapes, angles", "why_tests_cant": "Unbounded histories.", "anchors": ["x7/geom/model.py:GroupBuilder.elem_any", "x7/geom/model.py:GroupBuilder.group", "x7/geom/model.py:GroupBuilder.rotate_about_center", "x7/geom/model.py:Group.add_pt"]}
{"id": "C65", "title": "Self-intersection walk", "statement": "Whatever the curve solver answers, bez_self_intersect ends. With no reported intersections it returns [] and changes nothing, and [] is returned only then. Otherwise a successful call takes the closed curve with control points added at the reported points, cuts it into two arcs per reported intersection, each running between reported points, and returns curves that together use every arc exactly once, each joined end on start into a closed curve. With exact, well separated answers the union of the returned curves is exactly the original curve. If the curve comes to each reported point twice with an even number of visits in between (true of every plane curve with simple crossings) the call cannot fail with AttributeError, and with accurate answers before the segment ends it succeeds; a solver that misses a crossing can make it fail with AttributeError, and ZeroDivisionError needs a reported parameter 1. The control points passed in keep number, place and kind, but the call is not pure: it can change their handles. ElemCurve.self_intersect wraps the curves as new elements with distinct numbered names, the same pen, brush and closedness and no transform. Each time the curve meets a node adds one edge in and one edge out; the verdict that is printed about the graph is never a complaint, whatever the solver answers.", "quantifier": "all closed curves, all solver answers, all transforms of the element", "why_tests_cant": "Solver answers and graphs are unbounded.", "anchors": ["x7/geom/bezier.py:bez_self_intersect", "x7/geom/bezier.py:BziGraph", "x7/geom/bezier.py:BziNode.any_edge", "x7/geom/model.py:ElemCurve.self_intersect", "x7/geom/bezier.py:BziGraph.validate"]}
{"id": "C66", "title": "What is drawn", "statement": "Element.draw on a DrawingContext, also when it raises, only adds drawing calls to the image being drawn on; other images, the matrix and the settings stay. Without control points the calls are, path by path and in order: a polygon if filled (in the brush colour, or the shadow colour while drawing a shadow), then a line in the pen colour over the same points (closed up if filled), of the pen's width (scaled by the context matrix when negative) rounded to a whole pixel, at least 1, plus round dots in debug mode for wide pens. shadow_draw leaves the layer alone, draws everything filled in the shadow colour on the shadow image, and always restores the drawing target and colour, also on an exception. Drawing a group whose transform keeps distances makes the same calls as drawing its members under that matrix; for other transforms widths may differ. With show_cps a square is drawn around every corner or control point of what is visible before anything else.", "quantifier": "all elements, trees, contexts, colours", "why_tests_cant": "Trees and context states are unbounded; the repository's tests compare a few pictures.", "anchors": ["x7/geom/model.py:Elem.draw", "x7/geom/model.py:Elem.draw_path_debug", "x7/geom/model.py:Elem.draw_control_points", "x7/geom/drawing.py:DrawingContext.shadow_draw", "x7/geom/drawing.py:DrawingContext.stroke_width"]}
{"id": "C67", "title": "as_curves", "statement": "as_curves() on any tree gives one curve for each simple element in the tree, in order of insertion (outside before inside), with that element's name, pens and closedness, no transform of its own, and every control point and handle moved by all the transforms around it. It succeeds exactly when no element is filled but open and every shape has an outline. Drawing these curves one after the other makes the same paths as drawing the tree when the tree is made of curves and nothing is hidden; hidden groups are not left out. A rectangle becomes a curve through its corners with straight edges.", "quantifier": "all trees of groups, shapes with holes and simple elements with affine transforms", "why_tests_cant": "Trees are unbounded.", "anchors": ["x7/geom/model.py:Elem.as_curves", "x7/geom/model.py:Group.as_curves", "x7/geom/model.py:ElemWithHoles.as_curves"]}
{"id": "C68", "title": "Executing a dump gives the element back", "statement": "If the texts of the numbers in a drawing are read back as the same numbers (every finite double has such a text), then the text that output() gives for the dump of an element without holes is a program that Python can execute, and the name model then stands for an element with the same shapes, names (whatever characters they contain), pens, closedness and transform matrices, the members of groups being in name order; an element already in that form comes back equal. Lost are: the hidden flag and the points of groups, and the order in which members were added (which is the drawing order). The dump of an element with holes whose outside is a simple shape, or of a group with such an element anywhere in it, cannot be executed.", "quantifier": "all element trees, all names, colours and numbers", "why_tests_cant": "Needs quoting of arbitrary strings, sharing of variables between arbitrary many pens, and unbounded nesting.", "anchors": ["x7/geom/model.py:Elem.dump_elem", "x7/geom/model.py:Group.dump", "x7/geom/model.py:ElemCurve.dump", "x7/geom/model.py:ElemWithHoles.dump", "x7/geom/model.py:DumpContext.output"]}
{"id": "C69", "title": "Test data written by the pickler is read back", "statement": "do_pickle of an element, of a list of elements, or of a list of (string, element, transform) gives a text that Python evaluates to the same data, with each element in the form in which dumps restore elements (C68), for every prefix of whole indentation steps. The prefix only moves all lines but the first to the right by itself. do_pickle gives None exactly for all other data; the empty list is pickled.", "quantifier": "all data, all elements without holes (for reading back), all names and strings, all prefixes of 4k blanks", "why_tests_cant": "Needs quoting of arbitrary strings, unbounded lists and nesting and every indentation.", "anchors": ["x7/geom/testing.py:PicklerExtensionGeom.do_pickle", "x7/geom/model.py:DumpContext"]}
{"id": "C70", "title": "Lines, polygons and the grid of a drawing context", "statement": "line() makes exactly one line call between the images of its two ends under the matrix, polygon() exactly one polygon call with the images of the corners in order (no corners: ValueError, nothing is drawn), and neither changes anything else. grid() draws in red the axes from -1000 to 1000 and in black, green and blue the edges of the squares with half sides 100, 50 and 10, all as seen through the matrix, and nothing more. unscale_pt undoes scale_pt and the other way round after any history of the matrix, and raises LinAlgError when the matrix cannot be inverted; set_matrix copies the map of the other transform.", "quantifier": "all contexts, all matrices and their histories, all points, colours and widths", "why_tests_cant": "The drawn set is infinite and depends on an arbitrary matrix.", "anchors": ["x7/geom/drawing.py:DrawingContext.line", "x7/geom/drawing.py:DrawingContext.polygon", "x7/geom/drawing.py:DrawingContext.grid", "x7/geom/drawing.py:DrawingContext.unscale_pt"]}
{"id": "C71", "title": "The palette of an animation and the colours of its frames", "statement": "make_palette never fails; its palette begins with the colours used by most pixels in all frames together (the larger tuple at equal counts), each once, up to 256 of them, so no colour left out is used more than one taken; the order of frames and pixels does not matter; other entries are those of palette_image(). resize_for_gif leaves colours as resized and makes alpha 255 where it was 255 and 0 elsewhere. With at most 256 colours in all frames, the frames saved show every pixel in its colour (not opaque pixels in black) and are transparent just where a pixel has the colour of the upper left one; an empty frame raises IndexError. image_fix_palette makes every half transparent entry opaque in a blue that depends on its alpha only, leaves the others and bytes beyond 1024 alone, does nothing when repeated, and raises IndexError on a short palette. Without a palette image, rgb_to_transparent and rgba_to_transparent make every pixel of the upper left pixel's colour transparent, whatever the alpha of either; the alpha of the pixels plays no part, so pixels that were transparent may show, and the index kept free for transparency is never the transparent one; other modes raise AssertionError and empty images IndexError.", "quantifier": "all lists of images, all palettes; PIL's resize, alpha_composite quantize and adaptive conversion by contract", "why_tests_cant": "Needs all multisets of colours, ties included, and all numbers of colours around the limit.", "anchors": ["x7/geom/anim.py:Builder.make_palette", "x7/geom/anim.py:Builder.resize_for_gif", "x7/geom/anim.py:rgb_to_transparent", "x7/geom/anim.py:Builder.save_animation", "x7/geom/imagehelp.py:image_fix_palette", "x7/geom/imagehelp.py:palette_image", "x7/geom/imagehelp.py:rgba_to_transparent"]}
{"id": "C72", "title": "Equality of elements and closeness of control points", "statement": "Two elements compare equal exactly when they are of the same class, have the same name, pens, closedness, matrix and shape, and, for groups, the same hidden flag, equal members under the same names and the same points under the same names (in any order of insertion), for shapes with holes an equal outside and equal insides in order. This is an equivalence. Control points are close exactly when they are of the same kind and the points and both handles are each nearer than max_delta; this is symmetric, holds for a point and itself when max_delta > 0, adds up along chains, and is not transitive for any max_delta > 0.", "quantifier": "all trees of elements; all control points and tolerances", "why_tests_cant": "Trees are unbounded and closeness is over a continuum.", "anchors": ["x7/geom/model.py:Elem.__eq__", "x7/geom/model.py:Group.__eq__", "x7/geom/model.py:ElemWithHoles.__eq__", "x7/geom/bezier.py:ControlPoint.close", "x7/geom/geom.py:Vector.close"]}
{"id": "C73", "title": "Intersections of two curves", "statement": "With a curve library whose answers are parameters at which the two cubics agree, every (point, t, s) of bez_intersect_new is a point of both segments at those parameters in 0..1, in the library's order; every common point the library finds is returned, except that without endpoints just the pairs (1, 0) and (0, 1) are left out, so a common start or end is still reported although endpoints=False. When the library gives up the answer is empty. bez_intersect returns the points, or two rows of parameters of equal length that belong together index by index, or [] when there are none. Exchanging the curves exchanges the parameters. bez_self_intersect on top of such a library returns curves that together are the curve it was given.", "quantifier": "all pairs of segments, all answers of the library", "why_tests_cant": "All curves and all answers; needs the polynomial identity.", "anchors": ["x7/geom/bezier.py:bez_intersect", "x7/geom/bezier.py:bez_intersect_new", "x7/geom/bezier.py:bz_curve", "x7/geom/bezier.py:bez_self_intersect"]}
{"id": "C74", "title": "Helpers for tests", "statement": "all_subclasses gives exactly the proper descendants of a class, also with multiple inheritance. Points and vectors compare as almost equal exactly when both coordinates do by the default tolerance, otherwise the message names the coordinates that differ; places and delta are ignored. explain_mismatch for control points never reports a match: it raises AttributeError when centre and handles are close and says False otherwise. assertMatchPlot restores the plot settings and closes one figure whatever the body and the comparison do, and reports a comparison failure before an exception of the body; if the picture cannot be taken the settings stay changed. For points explain_mismatch says whether they are close and never why not.", "quantifier": "all class hierarchies, values, tolerances, bodies and comparisons", "why_tests_cant": "The helpers are what tests use; their error paths are never reached by passing tests.", "anchors": ["x7/geom/testing.py:all_subclasses", "x7/geom/testing.py:ExtendedMatcherGeomXY", "x7/geom/testing.py:ExtendedMatcherControlPoint", "x7/geom/testing.py:PlotMatchContextManager", "x7/geom/testing.py:ExtendedMatcherPoint"]}
{"id": "C75", "title": "Displaying a model", "statement": "display prints every element of the tree, also in hidden groups, in consecutive lines; the prefix is put before every line and changes nothing else; members of a group are indented by two spaces, parts of a shape with holes by four; the number of lines is one for the element, one for a transform that is not the identity, one for each named point, and with detail one for the pen and one for each control point. What is printed does not depend on the order in which groups were filled; neither does what dump writes, except inside the outside of a shape with holes. The holes are announced by the same line 'Outside:' as the outside.", "quantifier": "all elements, prefixes and detail levels", "why_tests_cant": "Trees are unbounded and insertion orders many.", "anchors": ["x7/geom/model.py:Group.display", "x7/geom/model.py:ElemWithHoles.display", "x7/geom/model.py:ElemCurve.display", "x7/geom/model.py:Group.dump"]}
{"id": "C76", "title": "Rounding", "statement": "round(n) takes each coordinate to the nearest multiple of ten to the minus n, to the even multiple when two are equally near; the result is determined by that. Numbers already on the grid, and only those, do not change; order and sign are kept; rounding twice is rounding once. Rounding any kind of point gives a new plain point and changes nothing else, whatever the point depends on. A rounded difference of points is the difference of the rounded points, which need not be the rounded difference. A rounded box contains every rounded point of the box; only BBox(None) cannot be rounded. A rounded control point keeps its kind and keeps opposite handles opposite; the ends of its handles move by at most one unit.", "quantifier": "all exact numbers, all digit counts, points of every program, all boxes and control points", "why_tests_cant": "Ties and crossing orders are measure-zero or need every number.", "anchors": ["x7/geom/geom.py:BasePoint.round", "x7/geom/geom.py:Vector.round", "x7/geom/geom.py:VectorRelative.round", "x7/geom/geom.py:BBox.round", "x7/geom/bezier.py:ControlPoint.round"]}
{"id": "C77", "title": "Lists of points back, and centres of elements", "statement": "untransform_pts is the inverse of transform_pts after any history of calls; it raises LinAlgError when the matrix is singular and ValueError for no points. An element has a centre exactly if it has a box; the centre is the middle of the box. A copy has the same box and centre. The centre of a transformed element is the transformed centre for rectangles, ellipses, groups and shapes with holes, and for curves when nothing turns or shears.", "quantifier": "all histories of transform calls, all lists of points, all element trees and matrices", "why_tests_cant": "Unbounded histories and trees.", "anchors": ["x7/geom/transform.py:Transform.untransform_pts", "x7/geom/model.py:Elem.center", "x7/geom/model.py:Elem.transform"]}
{"id": "C78", "title": "What saving an animation writes", "statement": "SimpleAnimation.save_animation writes, on macOS and Linux, one file with all frames in order, at the path given or else at the default path, which is then printed; each frame is shown for the time asked rounded down to a millisecond; since animate() keeps every picture twice, the file lasts twice as long. Without frames, and on other systems, an exception is raised and nothing written. Builder.save_animation writes, on macOS and iOS, one file with as many frames as it was given or has; together they last as long as asked, up to a millisecond per frame; on Linux it succeeds without writing anything. On macOS the file it then optimizes and shows is always /tmp/anim.gif, whatever was written. run() saves exactly the frames it built; when building fails nothing is written.", "quantifier": "all lists of frames, times, paths, platforms and animations", "why_tests_cant": "Tests run on one platform and do not look at the files.", "anchors": ["x7/geom/anim_simple.py:SimpleAnimation.save_animation", "x7/geom/anim.py:Builder.save_animation", "x7/geom/anim.py:Builder.run"]}
{"id": "C79", "title": "Results on doubles are close to the exact results", "statement": "Points and vectors added, subtracted, scaled; dot and cross products; transformed points; products of matrices; polygon areas; positions of points relative to others; sampled points of curves; curves split in the middle, or anywhere; morphs and linear animations: whenever the result is a finite double, it differs from the result of the same call in exact arithmetic by at most a few half-units in the last place (2^-53) of the size of the data: one for an addition, 4 for a transform, 11 for a sampled point, and a bound that grows with the number of corners or of links for areas and chains of points. After any number n of calls to translate, scale, compose, compose_outer, set_matrix, reset, push and pop, each entry of the matrix is within 6n half-units of the same calls made with absolute values, and a transformed point accordingly. scale_bbox takes each corner of the start box to the corner of the target box within 17 half-units. The handles of a transformed control point are within 6 half-units of the distances from the origin (not of their own length). When math.hypot is off by at most k half-units for lengths in the normal range, each coordinate of a unit vector is within k+3 half-units and its length within 2(k+3) of 1, and the closest point of a line is within 2k+10 half-units of the distances to the origin of the line and along it; correct rounding is such a hypot (k = 2). When math.sin and math.cos are off by at most k half-units, and no angle exceeds m degrees: turning a vector moves it, and changes its length, by at most 2(k+1+m/10)+14 half-units of its length; after any number n of translate, rotate and rotate_ccw calls the images of the unit vectors are off by at most 2n times that, their lengths too, and the image of the origin in proportion to the way moved; the image of a point, and the distance between the images of two points, are off in the same proportion to the distances from the origin and the way moved; path_rotate likewise; the points of arc and circle are within 2(k+5) half-units of the radius, plus one of the centre, of lying on the circle, and near the point at the exact angle; none of it overflows for moderate data; correct rounding is such a sine and cosine (k = 2).", "quantifier": "all finite doubles, matrices, curves, numbers of steps up to 2^53, polygons, chains of relative points, all histories of calls and all boxes", "why_tests_cant": "Rounding depends on the data; tests compare a few values with a tolerance.", "anchors": ["x7/geom/geom.py:Vector", "x7/geom/geom.py:Point", "x7/geom/geom.py:polygon_area", "x7/geom/transform.py:Transform.transform", "x7/geom/transform.py:Transform.compose", "x7/geom/bezier.py:bez", "x7/geom/bezier.py:bez_split", "x7/geom/anim.py:Morph.update", "x7/geom/anim.py:AnimationLinear", "x7/geom/transform.py:Transform.scale_bbox", "x7/geom/bezier.py:ControlPoint.transform", "x7/geom/geom.py:Vector.unit", "x7/geom/geom.py:Line.closest", "x7/geom/transform.py:Transform.rotate", "x7/geom/transform.py:Transform.rotate_ccw", "x7/geom/geom.py:Vector.rotate", "x7/geom/utils.py:path_rotate", "x7/geom/utils.py:arc", "x7/geom/utils.py:circle"]}
{"id": "C80", "title": "Whole-number coordinates are exact on doubles", "statement": "With whole-number coordinates and arguments, as long as no number passes 2^53, nothing is rounded: sums, differences, dot and cross products, transformed points and control points with their handles, any history of translate, scale, compose, compose_outer, set_matrix, reset, push and pop, widths, heights, middles, centres and areas are those of exact arithmetic. Comparing boxes (union, intersection, grow, contains, touches, overlaps, ==) is exact for any finite coordinates.", "quantifier": "all whole-number data within 2^53, all histories of calls; all finite boxes", "why_tests_cant": "Exactness for all sizes and histories needs an invariant on magnitudes.", "anchors": ["x7/geom/geom.py:Vector", "x7/geom/geom.py:BBox", "x7/geom/geom.py:polygon_area", "x7/geom/transform.py:Transform"]}
{"id": "C81", "title": "Ends, middles and boxes on doubles", "statement": "On doubles a linear animation is exactly at its start at t=0 and at its target at t=1; a morph is exactly its source at t=0 and MorphMultiStep shows exactly the key curve at its time, before the first and from the last time on, when no coordinate exceeds 2^1023 (a larger one can give nan); a morph at t=1 need not be exactly the target. The middle of two points and the centre of a box are between them when finite; the centre of a box of finite coordinates may be infinite. Transform() leaves finite points unchanged, but the handle of a control point far from the origin can be lost, one translate is the addition of the vector and one scale the multiplication. Sampled points of a curve lie in any box of the control points up to 11 half-units of the largest coordinate, but not exactly: four equal control points can give a different point.", "quantifier": "all doubles, boxes, key times, histories, curves", "why_tests_cant": "Exactness at the ends depends on rounding for every pair of doubles.", "anchors": ["x7/geom/anim.py:AnimationLinear", "x7/geom/anim.py:Morph.update", "x7/geom/anim.py:MorphMultiStep.update", "x7/geom/geom.py:BBox.center", "x7/geom/geom.py:Point.mid", "x7/geom/transform.py:Transform", "x7/geom/bezier.py:bez"]}
{"id": "C82", "title": "The four numbers of a box, read and written by index", "statement": "box[0..3] are xl, yl, xh, yh and box[-4..-1] the same; any other index raises IndexError, whether read or written. Writing one number changes that one alone, after any history of writes each number is the last one written. Writing can leave the box unordered (xl > xh); sort() orders each axis, keeping the same numbers, and does nothing to an ordered box. On the empty box the four numbers are None, sort() raises TypeError and the size is (0, 0); otherwise the size is the difference of the edges, positive both ways exactly when the box is not empty. Two boxes are equal exactly when their four numbers are, and two boxes in order exactly when they cover the same points.", "quantifier": "all boxes, indices and histories of writes", "why_tests_cant": "All histories of writes.", "anchors": ["x7/geom/geom.py:BBox.__getitem__", "x7/geom/geom.py:BBox.__setitem__", "x7/geom/geom.py:BBox.sort", "x7/geom/geom.py:BBox.size"]}
{"id": "C83", "title": "The repr of a geometry object evaluates to an object built in the same way", "statement": "If the texts of the numbers in it are read back as the same numbers (every finite double has such a text), then repr() of a point (absolute, relative or computed, to any depth), vector, line, control point, transform, box, pen or table of pens is a Python expression, and evaluating it, whatever other objects exist, makes a new object built in the same way from the same numbers and names: at the same place, equal to the first, and independent of what happens to the objects that existed before. Points have the same repr exactly when they are built in the same way. Boxes come back with their edges sorted, so equal when they were ordered. str() of points, boxes and control points evaluates to the tuple of their parts; str() of a vector is V and the tuple of its coordinates, of a vector between points the two places, of a line its origin and direction to two digits; str() of a group tells its name and its numbers of elements and points, whatever characters the name contains, that of an element with holes its name and the classes of its outside and holes; str() of a rectangle or ellipse is its repr, that of a curve its repr with coordinates rounded to two digits. Not so: an empty name is not written, so such a point comes back unequal; the repr of a Matrix names Transform and cannot be evaluated; infinities and nan cannot be evaluated; the reprs of curves, rectangles and ellipses hide pen, transform and closedness, and are no calls the classes accept; str() of pens and of tables of pens and repr() of Colors do not tell a string from a number or None.", "quantifier": "all reachable sets of points, all chains of bases, all names and numbers", "why_tests_cant": "Chains of bases of any length, arbitrary characters in names, arbitrary numbers.", "anchors": ["x7/geom/geom.py:Point.__repr__", "x7/geom/geom.py:PointRelative.__repr__", "x7/geom/geom.py:PointCalc.__repr__", "x7/geom/geom.py:Vector.__repr__", "x7/geom/geom.py:VectorRelative.__repr__", "x7/geom/geom.py:Line.__repr__", "x7/geom/geom.py:BBox.__repr__", "x7/geom/bezier.py:ControlPoint.__repr__", "x7/geom/transform.py:Transform.__repr__", "x7/geom/transform.py:Matrix.__repr__", "x7/geom/colors.py:PenBrush.__repr__", "x7/geom/model.py:Group.__str__", "x7/geom/model.py:ElemWithHoles.__str__", "x7/geom/model.py:ElemCurve.__str__"]}
{"id": "C84", "title": "image_info describes an image faithfully in few lines", "statement": "image_info(im) prints the palette and some rows. A row is printed pixel by pixel from the left, at most 256 pixels, except that of two or more pixels side by side that equal the upper left pixel only the first is printed, followed by '...'; so no other pixel is lost, repeated or moved. The rows printed are those from two above to three below the first row that has a pixel other than 0, as far as they lie in the image; that row is among them. Of the palette the first nineteen bytes other than 0 and the first nineteen colours other than black are listed, each list followed by '...' exactly when there are more. Not so: a palette with an alpha channel raises IndexError, and a palette stored red, green, blue, red, green, blue is listed with colours it does not contain.", "quantifier": "all images of any size and pixel type, all palettes", "why_tests_cant": "Rows with runs of any lengths at any places, palettes of any contents.", "anchors": ["x7/geom/imagehelp.py:image_info", "x7/geom/imagehelp.py:image_info_palette"]}
{"id": "C85", "title": "Lines and segments with whole-number coordinates are decided exactly on doubles", "statement": "On doubles, for lines through points with whole coordinates of up to 2^20 (about a million): parallel() is true, and intersection() raises ParallelLineError, exactly when the lines are parallel in exact arithmetic; otherwise intersection() returns a point whose coordinates are within 4 rounding units (relative to the origin and the way along the line) of the exact common point. segment_intersection() returns None, raises ParallelLineError or returns a point exactly when exact arithmetic would, its internal assertion never fails, the parameters returned lie in [0, 1] and within 2 rounding units of the exact ones, and the point is within 2^-29 of the common point; math.hypot is only required not to be grossly wrong. Not so for larger numbers: with coordinates below 10^8 there are crossing segments for which the assertion fails, and with whole numbers near 2^53 crossing lines that count as parallel.", "quantifier": "all lines through points with whole coordinates up to 2^20, every hypot that is not grossly wrong", "why_tests_cant": "About 10^50 inputs; a wrong decision shows only for rare combinations of roundings.", "anchors": ["x7/geom/geom.py:Line.intersection", "x7/geom/geom.py:Line.parallel", "x7/geom/geom.py:Line.segment_intersection"]}
{"id": "C86", "title": "Animations and key curves on doubles", "statement": "When math.sin and math.cos are off by at most k half-units in the last place: after any update AnimationCircular has put its point within 2(k+5) half-units of the radius, plus one of the coordinates of the centre, of the circle around where the point was at first, near the exact angle tau*frequency*t + offset (offset in radians); AnimationSinusoidal has put it near the exact place (1 - cos(tau*frequency*t + offset degrees))/2 of the way to the target; both up to a multiple of the size of the angle, and neither overflows for moderate arguments. Between two key times MorphMultiStep puts every point and handle within a few half-units of the place in proportion to the time passed between the two key curves. An interpolating time function returns at each knot, before the first and from the last on the very double given there. A ramp between two doubles start < end in [0,1] never leaves [0,1] and never turns back by rounding, is exactly 0 and 1 at and beyond its ends, and lies within eight half-units of the straight line between; the ramp down is the rounded difference of 1 and the ramp up. sin, cos and sin_cos time functions are close to the exact waves, and never leave the rounded interval shift - scale .. shift + scale if the library's sine and cosine never leave -1 .. 1.", "quantifier": "all doubles, times, frequencies, offsets, radii, scales, shifts, knots and key times in increasing order and key curves", "why_tests_cant": "Rounding depends on the data; tests compare a few values with a tolerance.", "anchors": ["x7/geom/anim.py:AnimationCircular.update", "x7/geom/anim.py:AnimationSinusoidal.update", "x7/geom/anim.py:MorphMultiStep.update", "x7/geom/anim.py:Animation.interpolate", "x7/geom/anim.py:Animation.ramp_up", "x7/geom/anim.py:Animation.ramp_down", "x7/geom/anim.py:Animation.periodic", "x7/geom/anim.py:Animation.sin_cos"]}
{"id": "C87", "title": "Meshes and vector fields on doubles", "statement": "The coordinates of a Mesh are doubles close to the evenly spaced places: the first and the last are the edges of the box exactly, the others are off by at most five half-units in the last place of the numbers involved. When the step is more than twice that, a field on the mesh can be looked up, and: at every node lookup() returns the very doubles stored there, and transform() adds them with one rounding; anywhere inside the box lookup() returns the bilinear blend of the four surrounding vectors up to thirty half-units of the largest number stored, so it never noticeably leaves the range of the stored numbers. With more steps than there are doubles in the box the coordinates coincide and lookup() raises ValueError. normalized() gives the vectors divided by the length of the longest, up to twelve half-units per component: none is noticeably longer than 1 and one is 1 long up to rounding. smoothed() computes the weighted mean of the neighbourhood up to nineteen half-units before it normalizes; each component of the field it makes is that mean divided by the length of the longest mean, up to twelve half-units and 114 more for each time the largest number stored exceeds that length. The components of uniform(magnitude) never exceed the magnitude, rounding included.", "quantifier": "all boxes, numbers of steps up to 2^50, fields of doubles up to 2^500 (2^1000 for lookups), places inside the box", "why_tests_cant": "Rounding depends on the box, the number of steps and the data; tests try a few round numbers.", "anchors": ["x7/geom/vec_field.py:Mesh", "x7/geom/vec_field.py:VectorField.lookup", "x7/geom/vec_field.py:VectorField.interp_coords", "x7/geom/vec_field.py:VectorField.transform_np_pts", "x7/geom/vec_field.py:VectorField.normalized", "x7/geom/vec_field.py:VectorField.smoothed", "x7/geom/vec_field.py:Mesh.uniform"]}
{"id": "C88", "title": "min_rotation on doubles", "statement": "min_rotation(target, source) with float arguments returns a finite number from -180 to 180 whenever the difference of the angles does not overflow. Adding it to the source angle reaches the target angle up to whole turns and an error of at most 2^-53 times (three times the difference of the angles, plus 720) degrees. For whole numbers of degrees up to 2^51 nothing is rounded and the answer is the one C26 describes. Two promises that hold without rounding fail: 180 itself can be returned, and angles at most 2^-46 degrees apart give exactly 0.", "quantifier": "all finite doubles whose difference does not overflow, every fmod that C allows", "why_tests_cant": "The rounding of the sum, of the remainder and of its correction depends on the angles; tests use whole degrees, where nothing is rounded.", "anchors": ["x7/geom/utils.py:min_rotation"]}
{"id": "C89", "title": "What is drawn, on doubles", "statement": "Drawing an element on doubles gives the same list of paths as drawing it with exact arithmetic, up to rounding: as many paths, each open or closed alike, with as many points in the same order, and it raises exactly when exact arithmetic does, with the same exception. Every drawn coordinate that is a number differs from the exact one by at most ((1 + 2^-53)^(3 d + 30) - 1) times 27 s, where d is how deep the element is nested and s bounds the coordinates when the absolute values of all matrix entries, points and handles are taken. For a single curve the bound is 700 times 2^-53 times s, and every drawn point is that close to the image, under the exact matrices, of a point of the curve through the control points; for a single rectangle the bound is 7 times 2^-53 times s, around the images of the four corners and the first one again (and a few units of 2^-1022 more in each case). Such an s exists for every tree of curves and rectangles.", "quantifier": "all trees of groups, shapes with holes, curves, rectangles and ellipses, of any depth and any number of control points, all drawing matrices and element transforms, all numbers of points per curve up to 2^53; for ellipses any tan that makes 4/3 tan(pi/8) accurate to eight units of 2^-53", "why_tests_cant": "The errors of the composed matrices, of the moved handles, of the parameter and of the curve weights add up and depend on cancellation; tests compare a few pictures of small whole coordinates.", "anchors": ["x7/geom/model.py:ElemCurve.paths", "x7/geom/model.py:ElemRectangle.paths", "x7/geom/model.py:ElemEllipse.paths", "x7/geom/model.py:Group.paths", "x7/geom/model.py:ElemWithHoles.paths", "x7/geom/bezier.py:bez", "x7/geom/bezier.py:ControlPoint.transform", "x7/geom/transform.py:Transform.compose"]}
{"id": "C90", "title": "Plots of points and windows that redraw them", "statement": "plot(xy, ...) makes one call of the plotter with all x and all y of the points in order (tuples longer than the shortest are cut, no points give no coordinates), with round ends exactly for lines wider than 1; check_point_list accepts exactly the lists of points. A PlotViewer shows one new picture per call of its update function and nothing of the picture before, always has exactly one timer set, with the rounded time of a frame as delay, and stops showing anything new once the function fails. It cannot be made without an update function, although the code has a default for it. In arc_animate the angle runs through 3, 6, ..., 357 for ever, and no frame fails: the two arcs of each side join the same two points, one the long and one the short way round. The moving sine of the viewer shows sin(t + k/10) over one period in frame k.", "quantifier": "all lists of points and tuples, colours and widths; all update functions, states and numbers of timer events; all frames of the two examples", "why_tests_cant": "the windows and plots need a display, so the tests never run them; that no frame of an endless animation fails is a claim about every frame number, and needs the state of the closure as an invariant", "anchors": ["x7/geom/plot_utils.py: plot", "x7/geom/plot_viewer.py: PlotViewer.__init__, do_update, update_example", "x7/geom/utils.py: check_point_list, arc_animate, arc2p, circle"]}
{"id": "C91", "title": "What is printed about the graph of a curve that crosses itself", "statement": "With debug=True, whatever the curve solver answers, printing the graph of bez_self_intersect never fails, and the graph printed is the one the new curves are taken from. It prints one line for the graph, one for every node with its key, its place and two edges for every time the curve meets it, and one for every arc of the curve in order: its name, the two nodes it joins, how many control points it has, and as neighbours the arcs before and after it round the closed curve. validate() prints its one good line exactly when it returns True; for the graph of a curve it complains of exactly the nodes met less than twice, and in bez_self_intersect it never complains. The repr of an edge just added to an unfinished graph raises AttributeError, and printing a graph fails, at the first such edge, exactly when an edge lacks a neighbour.", "quantifier": "all closed curves starting at a node, all lists of nodes, all answers of the solver, all texts of numbers", "why_tests_cant": "the neighbours of an edge are set by three different statements and are wrong only for the first or last arc of some curve; a test sees the text of a few graphs, and debug output is not run by tests at all", "anchors": ["x7/geom/bezier.py: BziNode.__str__, BziEdge.__repr__, BziGraph.add_edge, BziGraph.print, BziGraph.validate, bez_self_intersect"]}
{"id": "C92", "title": "Bounding boxes computed on doubles", "statement": "For an element whose numbers are finite and which is nowhere so big that a coordinate could overflow, every edge of bbox() computed on doubles is finite and lies within 3 roundings for each level of nesting, and a few more, of the edge of the exact bounding box, measured by the distance of the element from the axes. When no shape has holes, bbox() on doubles succeeds exactly when it does on exact numbers, and fails with the same exception otherwise. Everything the element draws, exactly or on doubles, lies in the box computed on doubles, up to those rounding errors. The inner box of a group whose members have finite boxes is exactly the least box around them: putting boxes together rounds nothing. With holes, rounding may make a hole fit that does not; holes that are accepted stay inside the outer shape up to the rounding errors, and holes that stay inside by more than the rounding errors are accepted.", "quantifier": "all trees of groups and shapes with finite numbers up to 300 levels, all transforms without overflow", "why_tests_cant": "a test compares boxes of a few shapes with numbers that are exact in binary; rounding errors grow with the nesting and with the size of the transforms", "anchors": ["x7/geom/model.py: Elem.bbox, ElemCurve.bbox_int, ElemP1P2.bbox_int, Group.bbox_int, ElemWithHoles.bbox_int", "x7/geom/geom.py: BBox.__add__, BBox.grow, BBox.contains", "x7/geom/bezier.py: ControlPoint.bbox", "x7/geom/transform.py: Transform.transform"]}
{"id": "C93", "title": "Drawing on doubles does not overflow", "statement": "When all entries of the transforms in a tree of groups, shapes with holes, curves, rectangles and ellipses are at most 2^k in magnitude, all coordinates at most 2^c and the entries of the drawing matrix at most 2^a, every coordinate of every path drawn is finite and at most 2^(a + d (k + 2) + c + 12), d being the depth of the tree, as long as this exponent is at most 1000. Then the distance of every drawn coordinate from the exact one is bounded as in C89, without exception. Under the same kind of bound, with d (k + 3) + c + 2 at most 1000, bbox() does not overflow either, and its edges are as close to the exact ones as C92 says. Then everything drawn on doubles is finite, within a number of roundings of the exact picture that grows by three for each level and is taken at a power of two given by a, k, c and d alone, and, when no shape has holes, inside the box computed on doubles up to roundings of that size. Without such a bound, an element of finite numbers can be drawn with infinite coordinates.", "quantifier": "all trees without rounded rectangles, all drawing matrices, all bounds a, k, c with the exponent at most 1000, up to 2^53 points per curve", "why_tests_cant": "overflow needs deep nesting or huge scales; a test of some depth says nothing about the next", "anchors": ["x7/geom/model.py: Elem.paths, Elem.bbox, Group.paths, ElemWithHoles.paths, ElemCurve.paths, ElemRectangle.paths, ElemEllipse.paths, make_ellipse_cps", "x7/geom/bezier.py: bez, bez_path, ControlPoint.transform", "x7/geom/transform.py: Transform.compose, Transform.transform"]}
{"id": "C94", "title": "Rounded rectangles on doubles stay inside their corners", "statement": "A rounded rectangle between two corners, computed on doubles, is built without an error, whatever the order of the corners and however large the radius, also when the rectangle is a line or a point, and it has at least one control point. Every coordinate of every control point and handle is finite. Every control point lies in the rectangle exactly, with no allowance for rounding, and every handle ends in the rectangle up to one rounding of the largest coordinate. When it is drawn under any transforms, one path with at least one point comes out, and each finite coordinate of each drawn point is close to that of the exact image of some point of the rectangle, the latter enlarged by the one rounding above; the distance is at most 210 half-units of the size of the transformed rectangle.", "quantifier": "all corners with finite coordinates up to 2^1000 in magnitude whose sides are zero or at least 2^-1022, all finite radii from zero on, every math.hypot that is exact along the axes, every math.tan that gives the constant of the quarter circle within eight half-units", "why_tests_cant": "whether a rounded sum leaves the rectangle depends on the last bits of all the numbers; tests meet a few of them", "anchors": ["x7/geom/model.py: make_rounded_rect_cps, ElemRectangleRounded, ElemRectangleRounded.paths", "x7/geom/geom.py: Vector.length, Vector.unit"]}
