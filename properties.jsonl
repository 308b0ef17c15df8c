{"id": "C01", "title": "Bit mask decoding is exact", "statement": "For every BitMask and every integer m, names(m) lists exactly one entry per set bit of m, in increasing bit order: the defined name when the bit is defined and UNKNOWN<n> otherwise; a mask that is zero or negative decodes to the empty list. When all set bits of m >= 0 are defined, OR-ing mask(name) over the decoded names gives m back.", "quantifier": "all bit definitions with distinct names and bit numbers, all integers m of any size", "why_tests_cant": "masks are unbounded integers and definitions are arbitrary", "anchors": ["py/desimeter/bitmask.py: BitMask.names, BitMask.mask, BitMask.__init__"]}
{"id": "C02", "title": "Bit mask lookups agree", "statement": "For every list of definitions with distinct names and numbers, bitnum, bitname, comment, mask, [] and attribute access agree: looking a defined bit up by name or by number gives the same bit, its mask is 2**bitnum, mask('A|B|..') is the OR of the parts, and any undefined name or number raises KeyError. With a repeated bit number the later definition silently owns the number while the earlier name still resolves.", "quantifier": "all definition lists, all names and numbers", "why_tests_cant": "quantifies over all definition lists", "anchors": ["py/desimeter/bitmask.py: BitMask.__init__, bitnum, bitname, comment, mask, __getitem__", "py/desimeter/posparams/movemask.py", "py/desimeter/posparams/posflags_mask.py"]}
{"id": "C03", "title": "Fiber list parsing", "statement": "parse_fibers returns, for every string that is a comma separated list of decimal integers and a:b, a..b or a-b ranges (blanks ignored), the concatenation in order of the singletons and of the half-open ranges [a,b); the three separators are interchangeable, blank input gives the empty list, and any other string exits with status 1.", "quantifier": "all strings", "why_tests_cant": "the input language is infinite", "anchors": ["py/desimeter/util.py: parse_fibers"]}
{"id": "C04", "title": "Log note selection is an or of ands", "statement": "posmove_selection keeps exactly the rows whose LOG_NOTE contains, for some |-separated clause, every non-blank &-separated keyword of that clause, keeps their order and never alters or duplicates a row; with no selection string the table is returned unchanged, and a selection string with an empty clause keeps every row.", "quantifier": "all tables and all selection strings", "why_tests_cant": "arbitrary strings and tables", "anchors": ["py/desimeter/posparams/posmoveselection.py: posmove_selection, get_matches"]}
{"id": "C05", "title": "Key join of two tables", "statement": "match(a, b) raises ValueError exactly when a has a repeated value; otherwise the two returned index arrays have the same length, pair equal values (a[ia[k]] = b[ib[k]]), the second is strictly increasing, and every index of b whose value occurs in a appears exactly once.", "quantifier": "all pairs of arrays", "why_tests_cant": "all sizes, orders and duplications", "anchors": ["py/desimeter/match_positioners.py: match"]}
{"id": "C06", "title": "Nearest neighbour matching is injective and keeps the closest", "statement": "For a non-empty catalogue 2, match_same_system with duplicate removal returns for each entry of catalogue 1 either -1 with infinite distance or the index of a nearest entry of catalogue 2 with the true distance; no catalogue 2 index is returned twice; every catalogue 2 entry that is nearest to somebody stays matched, and it stays matched to a claimant at minimum distance. For an empty catalogue 2 nothing should be matched (refuted: index 0 is reported).", "quantifier": "all catalogues, any nearest neighbour oracle and any tie breaking", "why_tests_cant": "all point sets and tie patterns", "anchors": ["py/desimeter/match.py: match_same_system"]}
{"id": "C07", "title": "Triangle matching is injective", "statement": "match_arbitrary_translation_dilatation returns an index array in which no non-negative index occurs twice and every non-negative index is a valid catalogue 2 index, whatever triangles the nearest neighbour search paired.", "quantifier": "all catalogues and all triangle pairings", "why_tests_cant": "all pairings and visiting orders", "anchors": ["py/desimeter/match.py: match_arbitrary_translation_dilatation"]}
{"id": "C08", "title": "Triangle matching recovers a translated and dilated catalogue", "statement": "If catalogue 2 is a positive dilatation plus a translation of catalogue 1 (possibly reordered) and the triangle descriptors of catalogue 1 are pairwise distinct, every triangle is paired with its own image and the returned match is the true correspondence.", "quantifier": "all catalogues with at least 3 points, all scales > 0, all translations, all reorderings", "why_tests_cant": "continuous families of transforms", "anchors": ["py/desimeter/match.py: compute_triangles_with_fixed_orientation, match_arbitrary_translation_dilatation"]}
{"id": "C09", "title": "Spot to positioner assignment is one-to-one, scored and maximal", "statement": "match_positioners returns for every spot of the input table -1 or the row of a positioner of the metrology table; fiducials and spots below the threshold get -1 and a NaN score; no positioner is assigned to two spots; an assigned pair has score 1 exactly when the spot is closer to the positioner than its arm length (calibrated arms plus fudge, the median one when not calibrated), and 0 otherwise; the total counts the pairs with score 1 and no one-to-one pairing has more pairs in reach; every alternative is another such table with as many pairs in reach. The function returns whenever some spot is in reach of some positioner with distinct device ids and raises ValueError for repeated ids. 'Assigned means in reach' is refuted.", "quantifier": "all spot lists, metrology and calibration tables, all solvers returning a (maximal) complete one-to-one assignment", "why_tests_cant": "solver outcome and geometry are arbitrary", "anchors": ["py/desimeter/match_positioners.py: match_positioners, solve_assignment"]}
{"id": "C10", "title": "Possible assignments listing is exact", "statement": "possible_assignments_dict(assignment, alternatives) has an entry exactly for the positioners (not -1) assigned in the assignment or in some alternative, and the entry is the set of the spots assigned to that positioner in one of them.", "quantifier": "all assignments and lists of alternatives", "why_tests_cant": "arbitrary bipartite graphs", "anchors": ["py/desimeter/match_positioners.py: possible_assignments_dict"]}
{"id": "C11", "title": "Coordinate averaging changes matched spots only", "statement": "average_coordinates returns the first table where exactly the spots paired in turn with a spot of each other table (nearest, less than 5 mm apart, no spot used twice) have coordinates replaced by the mean over all tables, each table being brought to the first by its least squares affine map; every other row and column is unchanged. Tables showing the same spots through affine maps leave the first table unchanged.", "quantifier": "all lists of tables", "why_tests_cant": "arbitrary number and content of tables", "anchors": ["py/desimeter/averagecoord.py: average_coordinates"]}
{"id": "C12", "title": "Angle wrapping to [0,360)", "statement": "put360, arctan2d and mjd2lst always return an angle in [0,360) that differs from the unwrapped angle by a whole number of turns; arctan2d(y,x) is the direction of (x,y).", "quantifier": "all real angles, all (x,y)", "why_tests_cant": "continuum of inputs", "anchors": ["py/desimeter/trig.py: put360, arctan2d", "py/desimeter/time.py: mjd2lst"]}
{"id": "C13", "title": "Average of two angles", "statement": "average_angles_deg(a1,a2) is symmetric, invariant under adding whole turns to either input, lies in [0,360), and for directions less than 180 degrees apart is the midpoint of the short arc.", "quantifier": "all pairs of angles", "why_tests_cant": "continuum of inputs", "anchors": ["py/desimeter/trig.py: average_angles_deg"]}
{"id": "C14", "title": "Wrapping an angle into a travel range", "statement": "_wrap_into_range returns an angle inside the range whenever min <= max; without a fail flag the result is congruent to the input modulo 360 and equals the input if it was already in range; with a fail flag the result is an end of the range and no angle congruent to the input lies in the range.", "quantifier": "all angles and all ranges with min <= max", "why_tests_cant": "continuum of inputs", "anchors": ["py/desimeter/transform/xy2tp.py: _wrap_into_range, _wrap_TP_into_ranges"]}
{"id": "C15", "title": "Inverse kinematics reaches the target", "statement": "For arms r1,r2 > 0 and any target, xy2tp without a guess returns (t,p) inside the ranges; when unreachable is False and the target is not within the numerical contraction of the annulus border, tp2xy(t,p) is exactly the target; targets outside the annulus are always flagged.", "quantifier": "all targets, all positive arm lengths, all ranges", "why_tests_cant": "continuum of inputs", "anchors": ["py/desimeter/transform/xy2tp.py: xy2tp, tp2xy"]}
{"id": "C16", "title": "Inverse kinematics clamps to the nearest point", "statement": "For a target outside the reachable annulus the (t,p) returned (when ranges do not interfere) put the fiber on the border of the contracted annulus in the direction of the target, the nearest point of that annulus.", "quantifier": "all unreachable targets and arm lengths", "why_tests_cant": "continuum of inputs", "anchors": ["py/desimeter/transform/xy2tp.py: xy2tp"]}
{"id": "C17", "title": "The theta guess picks a valid configuration", "statement": "With a theta guess, xy2tp still returns angles inside the ranges; if the result is not flagged, tp2xy gives the target exactly; if some configuration is both in range and within the tolerance of the guess then the returned one is, and no such considered configuration is closer to the guess.", "quantifier": "all targets with x != 0, arm lengths, ranges, guesses and tolerances", "why_tests_cant": "continuum of inputs", "anchors": ["py/desimeter/transform/xy2tp.py: xy2tp"]}
{"id": "C18", "title": "Positioner angle and offset conversions invert each other", "statement": "ext2int/int2ext and flat2loc/loc2flat are exact inverses, in both orders, for the same offsets (scalar or per point), and vectors of incompatible lengths are refused; int2loc after loc2int gives back every position not flagged unreachable, to within 10 machine epsilons (exactly, if it is that far from the edges of the reachable ring), with angles in the travel ranges.", "quantifier": "all values, offsets, vector lengths", "why_tests_cant": "continuum of inputs", "anchors": ["py/desimeter/transform/pos2ptl.py: ext2int, int2ext, flat2loc, loc2flat, int2loc, loc2int"]}
{"id": "C19", "title": "Per point parameters are applied per point", "statement": "loc2ext uses, for point i, the i-th arm length, offset, guess and tolerance when a vector of the right length is given and the common value when a scalar is given, and nothing of the other points; a vector of another length is not refused but its first value is used for all points.", "quantifier": "all vectors of points and parameters", "why_tests_cant": "arbitrary vector lengths", "anchors": ["py/desimeter/transform/pos2ptl.py: loc2ext, _to_list, _extend_list"]}
{"id": "C20", "title": "Signed angle difference", "statement": "delta_angle(start, final, direction) differs from final-start by a whole number of turns, has the sign of direction (or of final-start if direction is 0), equals final-start when the directions agree, and otherwise has magnitude below 360 unless the move is a whole number of turns, which keeps its number of turns; final and direction may be scalars or vectors, start must have the length of the result.", "quantifier": "all start, final, direction", "why_tests_cant": "continuum of inputs", "anchors": ["py/desimeter/transform/pos2ptl.py: delta_angle"]}
{"id": "C21", "title": "Radius and surface distance polynomials are accurate inverses", "statement": "For focal plane radii up to 420 mm s2r(r2s(r)) differs from r, and r2s(s2r(s)) from s, by less than 4.05 micrometres (0.76 micrometres from 25 mm outwards), both are positive and strictly increasing, and ptl2flat/flat2ptl, xy2qs/qs2xy and xy2uv/uv2xy round trips move no point by more than that.", "quantifier": "all radii in the stated interval, all directions", "why_tests_cant": "continuum of inputs", "anchors": ["py/desimeter/transform/xy2qs.py: r2s, s2r", "py/desimeter/transform/pos2ptl.py: ptl2flat, flat2ptl"]}
{"id": "C22", "title": "Focal surface lookup tables are invertible", "statement": "For the shipped lookup table, r2s, s2r, r2n, n2r and r2z interpolate the table linearly, r2s/s2r, r2n/n2r and s2n/n2s are exact inverses on the tabulated range, they are strictly monotone and NaN exactly outside; z2r and z2s however return NaN for every argument.", "quantifier": "all radii", "why_tests_cant": "continuum of inputs over a 501 row table", "anchors": ["py/desimeter/transform/rszn_lookups.py: r2s, s2r, r2z, z2r, r2n, n2r"]}
{"id": "C23", "title": "Petal to focal plane is a rigid motion", "statement": "With an explicit z, ptl2fp and fp2ptl are exact inverses of each other and are rigid motions (rotation about x, y, z by alpha, beta, gamma, then translation; distances and handedness kept), for every alignment. With z omitted both ways the point found back is off by the difference of the nominal heights; with the shipped alignments, which have no tilt, x and y are found back exactly.", "quantifier": "all points and all six alignment parameters", "why_tests_cant": "continuum of inputs", "anchors": ["py/desimeter/transform/ptl2fp.py: Rx, Ry, Rz, Rxyz, ptl2fp, fp2ptl"]}
{"id": "C24", "title": "Table version of petal to focal plane equals the point version", "statement": "apply_ptl2fp gives each row of a table the coordinates ptl2fp gives for that row's own petal, for any mixture and order of petals, and raises KeyError if a petal has no alignment.", "quantifier": "all tables", "why_tests_cant": "arbitrary tables", "anchors": ["py/desimeter/transform/ptl2fp.py: apply_ptl2fp"]}
{"id": "C25", "title": "Linear corrections invert", "statement": "SimpleCorr.apply and apply_inverse are exact inverses whenever sxx*syy != sxy**2, in either order.", "quantifier": "all parameters and points", "why_tests_cant": "continuum of inputs", "anchors": ["py/desimeter/simplecorr.py: SimpleCorr.apply, apply_inverse"]}
{"id": "C26", "title": "Outcome of the linear correction fit", "statement": "SimpleCorr.fit(x1,y1,x2,y2) on source points not on one line finds the least squares affine map. It gives nan parameters exactly when the linear part of that map has trace zero (a 90 degree rotation, a reflection). Otherwise apply is that map exactly when its linear part is not symmetric or the object had a zero rotation before (a symmetric linear part leaves the earlier rot_deg in place), and nmatch and rms describe the fit. Collinear sources raise LinAlgError.", "quantifier": "all data sets with a nonsingular normal matrix, all previous states of the object", "why_tests_cant": "continuum of inputs and object histories", "anchors": ["py/desimeter/simplecorr.py: SimpleCorr.fit"]}
{"id": "C27", "title": "Rotation and offset fit", "statement": "SimpleCorr.fit with solid=True sets the scales to 1, recovers exactly the rotation and offset of data which are a rotation, any positive scale and an offset, and in general finds the rotation of the best rigid motion; its offset is that of the best similarity and not of the best rigid motion. Equal source points raise LinAlgError.", "quantifier": "all data sets", "why_tests_cant": "continuum of inputs", "anchors": ["py/desimeter/simplecorr.py: SimpleCorr.fit_rotoff"]}
{"id": "C28", "title": "Corrections and JSON", "statement": "tojson of a SimpleCorr or TanCorr records every parameter, but under a name which fromjson refuses: the round trip always raises AssertionError. Documents with the name fromjson expects are restored completely.", "quantifier": "all corrections", "why_tests_cant": "all parameter values", "anchors": ["py/desimeter/simplecorr.py: SimpleCorr.tojson, fromjson", "py/desimeter/fieldmodel.py: TanCorr.tojson, fromjson"]}
{"id": "C29", "title": "FVC transform survives JSON", "statement": "FVC2FP.fromjson(FVC2FP.tojson(t)) equals t for every transform, including optional fields that are absent, and version 1 files are read with the legacy polynomial list and default image scale.", "quantifier": "all transforms", "why_tests_cant": "all parameter values", "anchors": ["py/desimeter/transform/fvc2fp.py: FVC2FP.tojson, FVC2FP.fromjson"]}
{"id": "C30", "title": "FVC to focal plane and back", "statement": "For usable transforms (existing term ids, nonzero scales): without displacement, fvc2fp and fp2fvc are exact inverses on nonempty arrays. When the Zhao-Burge displacement contracts by q<1 around the points, fvc2fp(fp2fvc(P)) differs from P by at most 420 mm times max(q 1e-12, q^20 |D|), and fp2fvc(fvc2fp(p)) from p by at most 2|pixel scale|/|scale| times max(q/(1-q) 1e-12, q^20 |D|). Without contraction fp2fvc silently returns a non-inverse.", "quantifier": "all transforms with nonzero scale, all points", "why_tests_cant": "continuum of inputs", "anchors": ["py/desimeter/transform/fvc2fp.py: FVC2FP.fvc2fp, fp2fvc, _reduce_xyfvc, _expand_xyfvc, _reduce_xyfp, _expand_xyfp"]}
{"id": "C31", "title": "Fiducial pairing in the FVC fit", "statement": "In FVC2FP.fit, if fiducial spots and metrology rows have distinct (location, pinhole) labels and pinholes below 10, the pairing succeeds when every fiducial has metrology and pairs each fiducial spot exactly once with the row of the same label, whatever the order of the tables; with two or more fiducials, one of them without metrology, it raises. With update_spots (and no fiducial at location 0) each fiducial spot receives the columns of its own row and all other spots the default.", "quantifier": "all spot and metrology tables", "why_tests_cant": "arbitrary orders and contents", "anchors": ["py/desimeter/transform/fvc2fp.py: FVC2FP.fit"]}
{"id": "C32", "title": "Noll index conversion is a bijection", "statement": "convertNolltoBW maps the positive integers bijectively onto the pairs (n,m) with |m|<=n and n-m even, with the Noll ordering; even indices are cosine terms and odd indices sine terms.", "quantifier": "all positive integers", "why_tests_cant": "infinite domain", "anchors": ["py/desimeter/transform/zhaoburge.py: convertNolltoBW"]}
{"id": "C33", "title": "Zernike radial polynomials", "statement": "getZernRadial evaluates the Zernike radial polynomial: it is 1 at r=1 and has parity (-1)**n for every admissible (n,m); getZernFuncXY at (r cos t, r sin t) is the radial polynomial at r times cos(m t) or sin(|m| t), for every r and t; the normalisation table agrees with 2(n+1) (or n+1 for m=0) for every tabulated index, and the normalised polynomials getZ 1..37 are orthonormal on the unit disk.", "quantifier": "all admissible (n,m), all r", "why_tests_cant": "infinite family of polynomials", "anchors": ["py/desimeter/transform/zhaoburge.py: getZernRadial, getZernAngular, getZernFuncXY"]}
{"id": "C34", "title": "Zhao-Burge terms are gradients or curls", "statement": "Every S term of getZhaoBurgeTerm (ids 0 to 26) is the gradient of a scalar field, hence curl free, and every T term (ids 27 to 32) has a stream function and is divergence free, at every point of the plane; the label starts with S or T accordingly; any other id ends the program.", "quantifier": "all 33 polynomial ids, all points", "why_tests_cant": "continuum of inputs", "anchors": ["py/desimeter/transform/zhaoburge.py: getZhaoBurgeTerm"]}
{"id": "C35", "title": "Zhao-Burge fits are least squares optimal", "statement": "fitZhaoBurge returns the coefficients that minimise the sum of squared residuals, strictly better than any other coefficient vector, and recovers the coefficients of exact data, whenever no non zero combination of the terms vanishes at all data points; otherwise it raises LinAlgError.", "quantifier": "all data sets and polynomial lists", "why_tests_cant": "continuum of inputs", "anchors": ["py/desimeter/transform/zhaoburge.py: fitZhaoBurge, getZhaoBurgeXY"]}
{"id": "C36", "title": "Displacement evaluation is linear", "statement": "getZhaoBurgeXY is linear in the coefficients and transform() is offset, rotation and scale followed by this displacement; adding a term with zero coefficient changes nothing.", "quantifier": "all coefficient vectors, polynomial lists and points", "why_tests_cant": "continuum of inputs", "anchors": ["py/desimeter/transform/zhaoburge.py: getZhaoBurgeXY, transform"]}
{"id": "C37", "title": "Tangent plane projection inverts", "statement": "hadec2xy returns the components of the target direction along increasing hour angle and along north at the telescope pointing: the pointing projects to (0,0) and x**2+y**2 is the squared sine of the angular distance. xy2hadec inverts it exactly within 90 degrees of the pointing (declination exactly, hour angle up to whole turns) and hadec2xy inverts xy2hadec on the whole unit disk; outside the disk the result is nan, and a target behind the pointing comes back as its mirror image.", "quantifier": "all pointings and directions", "why_tests_cant": "continuum of inputs", "anchors": ["py/desimeter/transform/radec2tan.py: hadec2xy, xy2hadec"]}
{"id": "C38", "title": "Horizontal coordinates invert", "statement": "hadec2altaz and altaz2hadec invert each other: declination exactly, azimuth and hour angle up to whole turns; the altitude comes back in [0,90] or, below the horizon, as altitude+360 in [270,360). Azimuth runs from the north towards the east, at latitude 31.96403.", "quantifier": "all directions", "why_tests_cant": "continuum of inputs", "anchors": ["py/desimeter/transform/radec2tan.py: hadec2altaz, altaz2hadec"]}
{"id": "C39", "title": "Precession and rotation matrices", "statement": "The rotation matrices built for precession, ecliptic coordinates and polar misalignment are proper rotations, so undoing them by transposition is exact. The misalignment matrix brings the mount pole to the celestial pole around the horizontal axis; the hard coded matrices are the computed ones to 1e-12; the matrix for the negated misalignments, used as inverse, is within 6e-9 of the inverse and not equal to it. apply_precession adds a constant rate to the ecliptic longitude, preserves separations, and forwards then backwards gives back the direction.", "quantifier": "all angles and directions", "why_tests_cant": "continuum of inputs", "anchors": ["py/desimeter/transform/radec2tan.py: rotation_matrix, compute_polar_misalignment_rotation_matrix, apply_precession"]}
{"id": "C40", "title": "Field model corrections invert", "statement": "FieldModel.tancorr_sky2inst is exactly the inverse of tancorr_inst2sky for every non singular scale matrix, on the unit disk; TanCorr.apply is the scaled and rotated projection of the direction on the shifted pointing, and not a number outside the disk. (TanCorr.apply_inverse with a pointing offset is not an inverse: the offset is applied twice; refuted separately.)", "quantifier": "all corrections and points", "why_tests_cant": "continuum of inputs", "anchors": ["py/desimeter/fieldmodel.py: TanCorr.apply, apply_inverse"]}
{"id": "C41", "title": "Field rotation rate model is bounded and periodic", "statement": "dfieldrotdt_empirical_model rejects |dec| > 90, otherwise its rate is the cubic polynomial in the hour angle of (-180,180] and in dec, saturated to [-1.5,1.5]; it depends on the hour angle only and is unchanged by adding whole turns to ra or lst.", "quantifier": "all pointings", "why_tests_cant": "continuum of inputs", "anchors": ["py/desimeter/fieldmodel.py: dfieldrotdt_empirical_model"]}
{"id": "C42", "title": "Field model survives JSON", "statement": "FieldModel.fromjson(FieldModel.tojson(m)) restores the fifteen recorded attributes and resets the switches precession, aberration and polar_misalignment to True whatever they were.", "quantifier": "all field models", "why_tests_cant": "all parameter values", "anchors": ["py/desimeter/fieldmodel.py: FieldModel.tojson, fromjson"]}
{"id": "C43", "title": "ADC angles", "statement": "pm_get_adc_angles returns (ADC1, ADC2) whose difference ADC1-ADC2 is pm_zd2deltaadc of the zenith distance (saturating for distances over 60 degrees, non increasing, in (-145,-2)) and whose mean is the parallactic angle of the pointing; delta_angles_adc is in [0,360), congruent to adc2-adc1; average_angles_adc bisects them, is congruent to the parallactic angle for those angles, and both follow when the two ADCs are turned together.", "quantifier": "all pointings, all angle pairs", "why_tests_cant": "continuum of inputs", "anchors": ["py/desimeter/fiberassign.py: pm_get_adc_angles, pm_zd2deltaadc", "py/desimeter/transform/tan2fp/raytracefit.py: average_angles_adc, delta_angles_adc"]}
{"id": "C44", "title": "Circle fit is exact on circles", "statement": "_fast_fit_circle returns the exact centre and radius of any four or more distinct points of a common circle, with means or medians; with medians also when fewer than one point in six is off the circle. fit_circle is then exact too for any descending solver and accepts exactly the radii in [1,5]; whatever the points, an accepted circle has radius in [1,5]. (Up to three points it returns their centroid: that three points determine the circle is refuted separately.)", "quantifier": "all circles and point sets", "why_tests_cant": "continuum of inputs", "anchors": ["py/desimeter/circles.py: _fast_fit_circle"]}
{"id": "C45", "title": "Robust circle fit rejects outliers", "statement": "robust_fit_circle removes the worst of the points off a circle when fewer than one in six is off it, and returns the exact circle when it is the only one; with all points on a circle nothing is removed. It always returns for a non-empty input, with at most twelve points removed. (It never removes a second outlier, as a removed point stays the worst: removal until the rest agrees is refuted separately.)", "quantifier": "all point sets", "why_tests_cant": "continuum of inputs", "anchors": ["py/desimeter/circles.py: robust_fit_circle"]}
{"id": "C46", "title": "Spot detection windows", "statement": "detectspots takes as peaks exactly the pixels off the border that are above the threshold and above their four neighbours. The window of a peak at least three pixels from the first and four from the last row and column is 7x7 and centred on the peak; a measured spot lies within one pixel of its peak in each direction, and a spot symmetric about its peak is reported on the pixel centre. A peak closer to the first row or column makes the whole call fail, and one in the last row or column but one is reported one pixel off the fitted position.", "quantifier": "all images and peak positions", "why_tests_cant": "all positions including the borders", "anchors": ["py/desimeter/detectspots.py: detectspots"]}
{"id": "C47", "title": "Duplicate spot removal", "statement": "Duplicate removal always returns, invents no spot, and returns spots at least psf_sigma apart unless it used up its hundred removals. A spot with no other one close is always kept, and with distinct coordinates so is a spot brighter than every other one close to it. detectspots returns only measured peaks with at least the requested counts.", "quantifier": "all spot lists", "why_tests_cant": "arbitrary clusters", "anchors": ["py/desimeter/detectspots.py: detectspots"]}
{"id": "C48", "title": "Pinhole numbering from spotmatch", "statement": "spotmatch gives one row per seven-word line, with the location, position, flag and error of the line; fiducial rows have pinhole id 99; the pinholes of a location which has a fiducial row are numbered 10, 11, ... in order and so are distinct; pinholes of a location without one and everything else have 0. The other columns come from the last metrology row of the location, texts cut to seven characters; negative locations have none and unknown ones fail with KeyError.", "quantifier": "all spotmatch outputs", "why_tests_cant": "arbitrary outputs", "anchors": ["py/desimeter/spotmatch.py: spotmatch"]}
{"id": "C49", "title": "Calibration windows cover the data as requested", "statement": "With two or more datum dates, _define_cases returns distinct windows inside the table that begin and end at the rows of datum dates, span more than data_window rows (only the last may be shorter, and then begins at the first datum date) and begin at the latest possible datum date; every datum date far enough from the first ends a window. With one datum date all windows begin at the first row. The datum dates stop before the last date, so rows after the row of the last datum date are in no window.", "quantifier": "all time lists, datum lists and window sizes", "why_tests_cant": "arbitrary histories", "anchors": ["py/desimeter/posparams/fithandler.py: _define_cases, _row_idx_for_time"]}
{"id": "C50", "title": "What earlier fits change in a calibration fit", "statement": "A fit_params call which passes its own nominal values (without EPSILON parameters, or with its own bounds) gives the same result whatever fits were run before in the process. A call without nominal values does not: the module's default dictionary is changed in place, and the EPSILON parameters of every sequence fitted so far are fitted and returned again.", "quantifier": "all sequences of calls", "why_tests_cant": "histories of calls", "anchors": ["py/desimeter/posparams/fitter.py: fit_params, default_values, default_bounds"]}
{"id": "C51", "title": "What a calibration fit reports as failed", "statement": "fit_params raises AssertionError for arguments it does not accept; otherwise it returns the flag FAILED_FIT without parameters exactly when theta is stuck or there is no move after a rehome, and every other result has no flag and all parameters. A fit without outlier rejection and without circles to fit completes for any optimiser. Too few points left by the outlier rejection raise KeyError instead of being reported.", "quantifier": "all data and optimiser outcomes", "why_tests_cant": "depends on optimiser outcomes at any iteration", "anchors": ["py/desimeter/posparams/fitter.py: fit_params", "py/desimeter/posparams/movemask.py"]}
{"id": "C52", "title": "Calibration rows for the instrument obey the checks", "statement": "When the nominal positioner locations can be loaded and the script reaches its end: without --set-enabling it writes exactly the input rows which have all required values and pass every check with the limits in force (the default or a number typed by the operator), in the input order, except that a positioner with several such rows is reduced to at most one; with --set-enabling it writes all rows and marks a row nonfunctional exactly when it fails a check. Nothing but the mark is committed for a marked row, and scales and physical ranges are never committed. A value which is not a number passes every check. As the code stands the locations cannot be loaded (NameError) and nothing is ever written.", "quantifier": "all tables and all operator answers", "why_tests_cant": "arbitrary tables and interaction histories", "anchors": ["bin/prepare_posparams_for_instr: Check, _eliminate_rows, check_*"]}
{"id": "C53", "title": "Uniqueness check: which row is kept for the operator's answer", "statement": "At the prompt for a positioner with several rows, 'skip' removes its rows, the option number k keeps the row at position k of the table when that row belongs to the positioner and stops the program otherwise, and other lines are ignored; rows of other positioners are untouched and every positioner ends with at most one row. The row kept is the option chosen exactly when the first k+1 rows of the table are all of this positioner.", "quantifier": "all tables and answers", "why_tests_cant": "arbitrary tables and interaction histories", "anchors": ["bin/prepare_posparams_for_instr: check_uniqueness"]}
{"id": "C54", "title": "Operator prompts honour the allowed answers", "statement": "A yes/no prompt which offers every answer returns the meaning of the first line that has one. A prompt which offers only some answers obeys this for the first line only: after a line which is not an offered answer, every answer is accepted.", "quantifier": "all sequences of typed answers", "why_tests_cant": "unbounded interaction histories", "anchors": ["bin/prepare_posparams_for_instr: yesnohelp"]}
{"id": "C55", "title": "merge_posparams writes every row of every input", "statement": "merge_posparams writes every row of every input file in order, with all its columns and values unchanged, except that MOVE_CMD/MOVE_VAL1/MOVE_VAL2 columns of an input holding only integers or nothing become 'none', and that, when no input has DEVICE_LOC and --no-metrology is not given, LOCATION, DEVICE_LOC, PETAL_LOC and PETAL_ID are replaced by those of the last metrology entry of the device, or -1 if it has none. If LOCATION is missing but PETAL_LOC and DEVICE_LOC exist, LOCATION is 1000*PETAL_LOC+DEVICE_LOC. The comparison with the metrology never changes or prevents the output, except by a KeyError when one of the four columns is missing.", "quantifier": "all input tables", "why_tests_cant": "arbitrary tables", "anchors": ["bin/merge_posparams"]}
{"id": "C56", "title": "ok2move groups", "statement": "For a positive group size, the groups in the text output of ok2move, put together, are exactly the accepted positioners in order; every group but the last has the requested size and none is empty; together with the page of those not to be moved they hold every positioner of the table once and no fiducial. The HTML pages hold only the complete groups. A size of 0 raises ZeroDivisionError and a negative size writes no group.", "quantifier": "all lists and group sizes", "why_tests_cant": "arbitrary lists", "anchors": ["bin/ok2move"]}
{"id": "C57", "title": "The first get_logger call for a level decides where that level is written", "statement": "In any sequence of get_logger calls, the logger returned for a level is the one created by the first call for that level name, with the path and timestamps of that first call; the path and timestamps of later calls for it are ignored. An unknown level raises ValueError and changes nothing.", "quantifier": "all call histories", "why_tests_cant": "histories of calls", "anchors": ["py/desimeter/log.py: get_logger"]}
{"id": "C58", "title": "Which image the result of process_fvc belongs to", "statement": "In any sequence of process_fvc calls (serial or subprocess) starting without output files, the table returned for an image is the one measured in an image of the same base name (directory and .fits/.fits.fz ignored) given to that call or an earlier one; with overwrite=True it is measured in the image itself; if no two images have the same base name it is always that of the image asked for. With overwrite=False and an existing /tmp/<name>.csv the image is not looked at, so two images of the same name in different directories share one result. A name with .csv after its first characters is read as it is, and a name with neither .csv nor .fits ends the program with code 12; neither changes a file.", "quantifier": "all file names and call histories", "why_tests_cant": "histories of calls and the state of /tmp", "anchors": ["py/desimeter/processfvc.py: process_fvc, get_outfilename"]}
{"id": "C59", "title": "Leave-one-out turbulence excludes the fiber itself", "statement": "For given parameters of the covariance (fixed, or as returned by the fit), the excludeself turbulence of a spot from solve_independent is the one predicted at its position from the other spots alone, so it does not change with the spot's own measured offset; without excludeself the turbulence at the data points equals the prediction at their positions. With the Gaussian covariance and non-zero noise and length nothing can fail for any set of spots, coincident ones included. For solve_gradwavefront each component of the turbulence of a spot is independent of the same component of its own offset only; and when the covariance is fitted, the own offset still enters through the fitted parameters.", "quantifier": "all spot sets, covariances and offsets", "why_tests_cant": "continuum of inputs and all sizes", "anchors": ["py/desimeter/turbulence.py: solve_independent, solve_gradwavefront, solve_covar"]}
{"id": "C60", "title": "Turbulence polynomial model is curl free", "statement": "getpoly returns, for every degree, the x and y derivatives of the same monomials, one pair per monomial of degree 1..n.", "quantifier": "all degrees and points", "why_tests_cant": "all degrees", "anchors": ["py/desimeter/turbulence.py: getpoly"]}
{"id": "C61", "title": "Stationary spot correction handles missing spots", "statement": "correct_using_stationary predicts the turbulence at the requested positions with the Gaussian process of the fixed scaled covariance from the stationary fibres it flags as used. Without clipping (clip_resid <= 0) these are exactly the entries with finite values, any other entry changing nothing. With clipping and finite entries only, they are the entries strictly within 5 robust standard deviations of the median in both offsets (all, if there is none) whose residual after smoothing is below 0.01, whatever the value of clip_resid. With clipping and an entry which is not finite the call raises ValueError, unless exactly one entry is finite.", "quantifier": "all input tables", "why_tests_cant": "arbitrary missing value patterns", "anchors": ["py/desimeter/turbulence.py: correct_using_stationary"]}
{"id": "C62", "title": "Move flags", "statement": "eval_move_flags sets THETA_STUCK exactly when some theta arc qualifies for testing and none of the qualifying arcs shows motion above the threshold; it never sets other flags.", "quantifier": "all move histories", "why_tests_cant": "arbitrary histories", "anchors": ["py/desimeter/posparams/flags.py: eval_move_flags"]}
{"id": "C63", "title": "Bright image template comparison does not depend on scheduling", "statement": "Phi arm detection gives the same result serially, where the template array is shared and normalised in place at each call, and in parallel workers with private copies.", "quantifier": "all images, templates and any number of calls", "why_tests_cant": "schedules of calls sharing state", "anchors": ["py/desimeter/brightimage.py: detect_phi_arm"]}
{"id": "C64", "title": "Wyant index conversion is a bijection", "statement": "convertWyanttoBW maps the non negative integers bijectively onto the pairs (n,m) with |m|<=n and n-m even.", "quantifier": "all non negative integers", "why_tests_cant": "infinite domain", "anchors": ["py/desimeter/transform/zhaoburge.py: convertWyanttoBW"]}
{"id": "C65", "title": "Zhao-Burge terms are orthonormal", "statement": "The mean over the unit disk of the scalar product of two of the 33 vector polynomials of getZhaoBurgeTerm is 1 if they are the same one and 0 otherwise.", "quantifier": "all pairs of polynomial ids (integral over the whole disk)", "why_tests_cant": "an integral over a continuum; numerical quadrature only approximates it", "anchors": ["py/desimeter/transform/zhaoburge.py: getZhaoBurgeTerm, getZ, normalizeArea"]}
{"id": "C66", "title": "Two stage fit of the FVC transform", "statement": "fit_scale_rotation_offset hands the minimiser exactly the sum of squared residuals of the full transform (the priors on fixed values never contribute), returns fixed scale and rotation unchanged, and with fitzb the new coefficients give residuals no larger than any other coefficients (in particular the previous ones) for the same scale, rotation and offset.", "quantifier": "all data sets, minimisers, polynomial lists and fixed values", "why_tests_cant": "continuum of inputs and arbitrary minimiser outcomes", "anchors": ["py/desimeter/transform/zhaoburge.py: fit_scale_rotation_offset, transform, fitZhaoBurge"]}
{"id": "C67", "title": "Goodness of fit reported by the FVC fit", "statement": "After a successful FVC2FP.fit on well labelled tables, nmatch is the number of fiducial spots, meandistance and rmsdistance are the mean and root mean square in micrometres of the distances between the fitted positions of the fiducial spots and their own metrology, mediandistance has half of the distances on each side, mean <= rms, median <= sqrt(2) rms; a fixed scale or rotation and, without zbfit, the Zhao-Burge terms are unchanged.", "quantifier": "all spot and metrology tables, any minimizer", "why_tests_cant": "arbitrary tables and any outcome of the minimizer", "anchors": ["py/desimeter/transform/fvc2fp.py: FVC2FP.fit"]}
{"id": "C68", "title": "The pointing is the origin of the tangent plane", "statement": "For every combination of options radec2tan of the telescope pointing is (0,0), every result lies in the unit disk, a hexapod rotation turns the result by that angle, and without precession and aberration only the hour angle matters. Target and pointing are precessed, then aberrated, turned to hour angle, corrected for the polar misalignment and moved by refraction towards the zenith; the coordinates are the components of the target towards increasing hour angle and towards the north at the pointing.", "quantifier": "all options, pointings, targets, dates, sidereal times and hexapod angles", "why_tests_cant": "continuum of inputs", "anchors": ["py/desimeter/transform/radec2tan.py: radec2tan"]}
{"id": "C69", "title": "Aberration moves targets towards the apex", "statement": "apply_aberration moves a direction on the great circle towards the apex of the earth's motion (90 degrees behind the sun on the ecliptic); the tangent of the displacement is 0.99365e-4 times the sine of the angle to the apex, so it is never more than 20.5 arcsec. The longitude of the sun stays within 1.94 degrees of a mean longitude that grows by 0.9856474 degrees a day from 280.46 at J2000.", "quantifier": "all directions and dates", "why_tests_cant": "continuum of inputs", "anchors": ["py/desimeter/transform/radec2tan.py: apply_aberration, compute_aberration, getSunLon"]}
{"id": "C70", "title": "Undoing refraction", "statement": "apply_refraction raises the altitude by 79 arcsec * tan 30 / tan altitude, decreasing with altitude and 0 at the zenith. undo_refraction of a refracted altitude between 1 and 90 degrees is between the true and the refracted altitude, with an error of third order in the refraction and below 2e-8 degrees above 30 degrees; it is not exact. At altitude 0 the refraction is infinite.", "quantifier": "all altitudes from 1 to 90 degrees", "why_tests_cant": "continuum of inputs", "anchors": ["py/desimeter/transform/radec2tan.py: apply_refraction, undo_refraction"]}
{"id": "C71", "title": "Sky to tangent plane round trip", "statement": "For a target and a pointing at least 30 degrees above the horizon and less than 89.9 degrees apart, tan2radec of radec2tan gives back the direction: to 3e-8 degrees without aberration and polar misalignment, to 3e-6 degrees with polar misalignment (computed or hard coded matrices), and to 2e-5 degrees with aberration for targets within 80 degrees of the equator.", "quantifier": "all options, targets, pointings, dates, sidereal times and hexapod angles", "why_tests_cant": "continuum of inputs; the error of the approximate inverses is only bounded by analysis", "anchors": ["py/desimeter/transform/radec2tan.py: radec2tan, tan2radec"]}
{"id": "C72", "title": "Tangent plane correction fit", "statement": "TanCorr.fit moves the pointing four times by the mean offset, then its scale, rotation and offsets are those of the unique least squares affine map of the moved stars, with the right nstars and rms; collinear stars raise LinAlgError. (A fit of stars to their own positions does not give the identity but nan; refuted separately.)", "quantifier": "all star lists in the unit disk", "why_tests_cant": "continuum of inputs; optimality over all affine maps", "anchors": ["py/desimeter/fieldmodel.py: TanCorr.fit"]}
{"id": "C73", "title": "Ray trace fit", "statement": "tan2fp and fp2tan of the ray trace fit use exactly the tabulated coefficients at every tabulated pair of ADC angles, turn the focal plane with the ADCs when both are turned by the same angle, and undo each other within the stated bound wherever the distortion contracts.", "quantifier": "all tables, ADC angles, lists of points; any interp1d that goes through its knots", "why_tests_cant": "continuum of inputs and tables; the interpolator is external", "anchors": ["py/desimeter/transform/tan2fp/raytracefit.py: tan2fp, fp2tan, RayTraceFit"]}
{"id": "C74", "title": "Guide camera pixels to focal plane", "statement": "gfa2fp of a petal is the least squares affine map of its four corners taken in pinhole order, whatever the order of the rows of the metrology table, shifted by 2.23 mm along the sensor normal; fp2gfa is its two sided inverse whenever the map is not flat; a petal without corners, or that does not exist, raises KeyError; a table with a petal of one, two, three or more than four corners makes every call raise AssertionError.", "quantifier": "all metrology tables, petals, pixels", "why_tests_cant": "continuum of inputs; all orders of the table", "anchors": ["py/desimeter/transform/gfa2fp.py: gfa2fp, fp2gfa, fit_gfa2fp"]}
{"id": "C75", "title": "Spot model, its derivatives and the fitted errors", "statement": "The pixel-integrated gaussian used to fit spots is positive, the derivatives used by the fit are exactly its partial derivatives in the position, and over any window the pixel values add up to the gaussian integrated over the window. The fitted flux and position are one least squares step, shortened to 0.2 pixel when longer, from the values of the pass before, and the errors are the noise times the square roots of the x and y diagonal entries of the inverse normal matrix of that pass.", "quantifier": "all positive widths, positions and pixels", "why_tests_cant": "finite differences check a few points", "anchors": ["py/desimeter/detectspots.py: psf, dpsfdxc, dpsfdyc"]}
{"id": "C76", "title": "Filters on the move table", "statement": "The default filters of the calibration keep only rows of enabled positioners, one for each move sequence number occurring among them, in increasing order of that number.", "quantifier": "all tables and sort orders of ties", "why_tests_cant": "arbitrary tables", "anchors": ["py/desimeter/posparams/fithandler.py: _apply_filters, _ctrl_not_enabled, _no_move_performed"]}
{"id": "C77", "title": "Choice of the best static parameters", "statement": "The static parameters are medians over the windows with the smallest fit errors: a window not worse than a selected one is selected, more than q(n-1) of n windows are, exactly the next integer when errors differ, and every parameter lies between the smallest and largest value of the windows.", "quantifier": "all windows, errors and quantiles", "why_tests_cant": "arbitrary numbers of windows and ties", "anchors": ["py/desimeter/posparams/fithandler.py: run_best_fits"]}
{"id": "C78", "title": "What match_positions is given", "statement": "The pixel scale is the square root of the area scale of an affine transform, and the dilatation for a similarity; the targets file holds the expected positions in order and then the mean position of each fiducial, through the transform given.", "quantifier": "all transforms, metrologies and expected positions", "why_tests_cant": "continuum of transforms and arbitrary tables", "anchors": ["py/desimeter/spotmatch.py: _compute_pixel_scale, _write_spotmatch_targets_file, _write_spotmatch_device_centers_file, _write_spotmatch_reference_pos_file, spotmatch"]}
{"id": "C79", "title": "Noiseless calibration data are fitted exactly", "statement": "If the measured positions are those of the kinematic model for some parameters that are within the bounds and agree with the nominal values of those kept fixed, fit_params with an optimiser that finds the minimum returns a fit with zero rms, in static mode and (with the right arms, offsets and any true gear ratios within the bounds) in dynamic mode.", "quantifier": "all parameters, move histories, errors, optimisers that find minima", "why_tests_cant": "all positions, sequences and parameters", "anchors": ["py/desimeter/posparams/fitter.py: fit_params"]}
{"id": "C80", "title": "Fixed calibration parameters stay fixed", "statement": "Parameters kept fixed, the gear ratios in static mode and everything but the gear ratios in dynamic mode are returned with their nominal values (OFFSET_T brought to (-180,180] by whole turns); the parameters returned are the nominal ones plus the EPSILON parameters of the sequences without rehome. In dynamic mode a gear ratio cannot be kept fixed: no such fit succeeds.", "quantifier": "all data, optimisers, sets of fixed parameters", "why_tests_cant": "all sets of fixed parameters and optimiser outcomes", "anchors": ["py/desimeter/posparams/fitter.py: fit_params"]}
{"id": "C81", "title": "The rms of a calibration fit", "statement": "In static mode the rms returned is the square root of the sum, over the moves kept by the outlier rejection, of the square distances between the measured positions and those of the returned parameters, divided by the number of all moves: it is the rms of the residuals without rejection and is too small after a rejection. With an optimiser which does not go up, the weighted sum of squares is at most that of the starting values.", "quantifier": "all data and optimisers", "why_tests_cant": "all data and optimiser outcomes", "anchors": ["py/desimeter/posparams/fitter.py: fit_params, compute_rms_dist"]}
{"id": "C82", "title": "ok2move refuses exactly the wedged positioners", "statement": "When no two spots coincide, ok2move(spots) is False for a spot exactly when its two nearest spots are both closer than 3.5 mm and lie at least 90 degrees apart as seen from it; it works for zero or at least three spots and raises ValueError for one or two.", "quantifier": "all tables of distinct spots, any tie-breaking of argsort", "why_tests_cant": "quantifies over all spot configurations, including ties, and over sort orders", "anchors": ["bin/ok2move:16-67"]}
{"id": "C83", "title": "Local polynomial turbulence correction is exact for polynomial turbulence and leaves the own offset out", "statement": "correct_with_pol: when the offsets of the neighbours of a spot are the gradient of one polynomial of degree at most 4 that every two of the three cross-validation parts determine, what is subtracted from the spot is exactly the gradient there, whatever its own offset. The own expected position never enters as long as the neighbours stay the same. A spot measured farther than win from where it is expected makes the call fail; otherwise the call succeeds once a fit is accepted for the first spot, and a spot without an accepted fit takes the offset of the spot before it in the list.", "quantifier": "for all lists of spots, windows, least squares solvers and neighbour searches", "why_tests_cant": "Tests with one turbulence map cannot show that the own offset never leaks into the correction, nor exactness for all polynomials and layouts, nor when a stale offset of another spot is used.", "anchors": ["py/desimeter/turbulence.py:predictor", "py/desimeter/turbulence.py:correct_with_pol"]}
{"id": "C84", "title": "The phi arm angle is the best match over all scales and coarse angles", "statement": "detect_phi_arm returns an angle and a cross-correlation which is exactly that of the normalised template rotated by this angle with the edges of the stamp at one of the five smoothing scales, and no smaller than that at any scale and any multiple of 5 degrees, provided edges are found inside the disk at all five scales; if edges are missing at one of the scales the returned coefficient is nan even if another scale matches perfectly. For a non-constant stamp and a positive step the call succeeds, and the array of the caller is left holding the template set to 0 outside the disk and divided by its norm. The stamp searched is the square of pixels around the rounded position (first index y) minus its median in units of its standard deviation; the mean and rms returned are those of the fine scan of the scale that gave the angle, while the norm of the edges returned is that of the largest scale, whichever it was.", "quantifier": "all images, templates, spot positions and edge detectors", "why_tests_cant": "an optimum over two nested grids for every image and edge detector", "anchors": ["py/desimeter/brightimage.py: detect_phi_arm"]}
{"id": "C85", "title": "The polynomial and the tabulated arc length agree", "statement": "xy2qs.r2s/s2r (polynomials) and rszn_lookups.r2s/s2r (interpolation of the shipped table) describe the same focal surface: for every radius up to 420 mm the arc lengths agree within 3.7 micrometres and the radii within 2.1 micrometres, and both within 0.66 micrometres from 25 to 410 mm; at the centre they differ by more than 3.6 micrometres.", "quantifier": "for all real radii in [0, 420] mm and the tabulated arc length of each", "why_tests_cant": "a continuum of radii between the 501 rows; the bound at every point needs the rows and the second differences of the polynomials", "anchors": ["py/desimeter/transform/xy2qs.py:43-64", "py/desimeter/transform/rszn_lookups.py:27-45", "py/desimeter/data/focal_surface_lookup.csv"]}
{"id": "C86", "title": "Undoing aberration is a second order approximation", "statement": "undo_aberration of apply_aberration gives back the direction with an error (chord) of at most 3 v^2 (1 + 1/cos dec), v = 0.99365e-4, for declinations with cosine at least 0.14; at the pole it always returns a declination beyond 90 degrees.", "quantifier": "all directions and dates", "why_tests_cant": "continuum of inputs; the error grows towards the poles and is only bounded by analysis", "anchors": ["py/desimeter/transform/radec2tan.py: apply_aberration, undo_aberration"]}
{"id": "C87", "title": "Which moves a calibration fit rejects", "statement": "With outlier rejection a static fit removes moves one at a time, each time the one farthest from the fit of the moves left, only if it is at 0.2 mm or more and at 2.1 times the median distance or more, until the farthest is nearer, or 20 were removed. The parameters returned are those fitted to the moves kept, except after 20 removals, where the last move removed still took part in the fit; the rms and the number of points count the moves kept only.", "quantifier": "all data, starting values, bounds, fixed parameters and optimisers", "why_tests_cant": "all data, any number of outliers and all optimiser outcomes", "anchors": ["py/desimeter/posparams/fitter.py: fit_params (lines 345-390)"]}
{"id": "C88", "title": "Errors of the calibration parameters", "statement": "The covariance of two free parameters of a static fit is stored once, under COV.a.b with the names in alphabetical order, and is twice the element of the inverse Hessian of the weighted sum of squares of the moves left, at the parameters returned, for exactly these two parameters; it is multiplied by half the square of the rms unless both errors were given. Parameters kept fixed and the gear ratios have variance zero. The optimiser is started from the starting values with the bounds of the same parameters.", "quantifier": "all data, nominal values, bounds, fixed parameters and optimisers", "why_tests_cant": "the order of parameters and of covariance elements depends on which parameters are free and on the names of the sequences", "anchors": ["py/desimeter/posparams/fitter.py: fit_params (lines 264-266, 342-343, 399-425)"]}
{"id": "C89", "title": "Starting values of a calibration fit", "statement": "A static fit starts with EPSILON parameters zero for the sequences without a rehome, and with the centre at the median of the centres of the circles fitted to the moves which share a phi angle, three or more, unless the centre is kept fixed or there is no such circle; all other parameters start from the nominal values.", "quantifier": "all data, nominal values and fixed parameters", "why_tests_cant": "all groupings of moves by angle", "anchors": ["py/desimeter/posparams/fitter.py: fit_params (lines 201-206, 318-343)"]}
{"id": "C90", "title": "What a fiducial label means", "statement": "When findfiducials returns, with any earlier calls in the same process, a spot is labelled with a LOCATION only if it is closer than the pinhole separation (in pixels) to a spot which has at least four spots that close, which is the nearest of these to the central pinhole of that location as predicted by the transform and then corrected by one affine map common to all, and which is less than 10 pixels away from it. PETAL_LOC and DEVICE_LOC are LOCATION div and mod 1000. PINHOLE_ID is 0 or the number of a pinhole of that location, and no two spots share LOCATION and a positive PINHOLE_ID. All other spots have LOCATION, PETAL_LOC, DEVICE_LOC -1 and PINHOLE_ID 0. If no spot has four others close by, it raises LinAlgError.", "quantifier": "all spots, metrology tables, transforms, separations and histories of calls", "why_tests_cant": "depends on every arrangement of spots, on ties and on module variables left by earlier calls", "anchors": ["py/desimeter/findfiducials.py: findfiducials"]}
{"id": "C91", "title": "Fiducials that are seen are found", "statement": "If every predicted pinhole is seen, moved by a common shift and positive scale factor, in isolated groups of four which can be told apart, the central pinholes being less than 10 pixels from their images, nearer to them than to others and not on a line, and if no other spots come in groups, then the first call of findfiducials gives every such spot the LOCATION and PINHOLE_ID of its own pinhole and labels no other spot.", "quantifier": "all metrology tables, transforms, shifts, scale factors, orders of spots and other spots", "why_tests_cant": "any number of fiducials and spots in any order", "anchors": ["py/desimeter/findfiducials.py: findfiducials", "py/desimeter/match.py: match_same_system, match_arbitrary_translation_dilatation", "py/desimeter/simplecorr.py: SimpleCorr.fit"]}
{"id": "C92", "title": "findfiducials remembers the metrology of an earlier call", "statement": "Once a call of findfiducials has returned, the metrology (and the transform used to predict pinhole positions) of later calls in the process has no effect on their result. A call does not give the result of the same call in a new process.", "quantifier": "all histories of calls and all arguments", "why_tests_cant": "a test makes one call, or several with the same metrology", "anchors": ["py/desimeter/findfiducials.py: metrology_pinholes_table, metrology_fiducials_table, findfiducials (lines 15-60)"]}
{"id": "C93", "title": "What a row of the FVC output table means", "statement": "When fvc_proc processes a table of spots (without --use-spotmatch and turbulence correction, the metrology unchanged in the process) and writes a table, it has one row per spot in the same order; X_FP, Y_FP is the image of the pixel by the transform fitted to the fiducials found, of which at least three have pinhole 4. A spot which is not a fiducial has the LOCATION, PETAL_LOC, DEVICE_LOC and X_FP_EXP of the expected position nearest to it if that is closer than --max-match-distance and no other spot has taken it; no two spots share an expected position; a spot left without LOCATION is too far from its nearest expected position, or that was taken by a spot at least as close. A pinhole has the metrology position of its own LOCATION and PINHOLE_ID as X_FP_METRO and X_FP_EXP. Spots without a match keep the X_FP_EXP of the table read (0 for an image). With fewer than three fiducials, and only then, processing ends with no table.", "quantifier": "all images and tables of spots, metrology tables, expected positions, transforms, optimisers and earlier calls", "why_tests_cant": "the claim is about every spot of every image, and about ties and duplicates among thousands of spots", "anchors": ["py/desimeter/processfvc.py: fvc_proc (lines 240-277, 315-336, 360-365), get_expected_pos (166-202)"]}
{"id": "C94", "title": "Fibres near their expected positions are identified", "statement": "A spot which is not a fiducial gets the LOCATION of an expected position whenever its measured position is closer to it than --max-match-distance, closer to it than to any other expected position, and closer to it than any other spot which is not a fiducial. The expected positions are the columns X_FP, Y_FP of the file, else X_FP_EXP, Y_FP_EXP, else those at EXP_Q_0, EXP_S_0 with -99999 where one is nan, with LOCATION or else 1000 PETAL_LOC + DEVICE_LOC, without the rows of pinholes; without a file they are the metrology rows with PINHOLE_ID 0.", "quantifier": "all images, expected positions and metrology tables", "why_tests_cant": "any number of other spots and expected positions in any order", "anchors": ["py/desimeter/processfvc.py: fvc_proc (lines 272-336), get_expected_pos (166-202)"]}
{"id": "C95", "title": "What turbulence correction and field model change", "statement": "For spots found in an image, the turbulence correction receives the measured and expected positions of exactly the matched fibres (location not negative, not a pinhole, expected position off the axes), in table order, and only the X_FP, Y_FP of these rows change, to the values returned for them. The field model receives the final X_FP, Y_FP of the rows with both not 0 in order, these rows get the RA, DEC returned for them and the others 0; nothing else changes.", "quantifier": "all images, corrections and field models", "why_tests_cant": "a row given the value of another is only seen for particular selections", "anchors": ["py/desimeter/processfvc.py: fvc_proc (lines 339-358, 375-384)"]}
{"id": "C96", "title": "Exit codes and files of the FVC processing", "statement": "fvc_proc returns 12 if the output name does not end with .csv, else 1 if --threshold is given, else 13 if the input name has neither .fits nor .csv after its first character, and then no file changes. With --sequence and different extension names every accepted table of spots is written to its own file until one has too few fiducials (code 13) or raises; the files of the tables before it are kept and no other file changes; 0 is returned if all were done. Tables with a number of spots outside --min-spots, --max-spots are skipped, and 0 does not mean that a table was written.", "quantifier": "all options, file names, sequences of tables and results of processing", "why_tests_cant": "all sequences of successes and failures, and all output names", "anchors": ["py/desimeter/processfvc.py: preproc (lines 83-118), get_spots_list (121-163), fvc_proc (205-251, 386-390)"]}
{"id": "C97", "title": "The turbulence covariance is fitted by maximum likelihood on the central spots", "statement": "For any spots and offsets, and any noise and correlation length other than zero, loss_independent gives a finite value L with exp(-L) equal to (2 pi)^n times the probability density of the offsets under the Gaussian process, i.e. the product, one spot after the other, of normal densities whose mean is the prediction from the earlier spots and whose variance is that of process and noise less what the earlier spots explain. The parameters fitted by solve_independent are what the optimiser gives for that loss of the nuse spots nearest to the origin (all of them if nuse is not positive or there are fewer), started from (0.01, 0.01, 10). The loss is not -0.5 log(likelihood), as its documentation says.", "quantifier": "for all spot positions, offsets, parameters with sigma and length not zero, argsort results and optimisers", "why_tests_cant": "A test can compare the loss with a reference value for a few data sets; that it is the log density for every number of spots, including coincident ones, and that no Cholesky factorisation can fail, needs a proof about all positive definite matrices.", "anchors": ["py/desimeter/turbulence.py:203-261", "py/desimeter/turbulence.py:289-321", "py/desimeter/turbulence.py:475-510"]}
{"id": "C98", "title": "A ray meets a conic surface at its first point ahead", "statement": "In the ray tracer (RT185v2), for a surface without polynomial terms, the intercept reported with code OK is a point of the ray strictly ahead of its start, on the sheet of the conic through the vertex, and no earlier point of the ray ahead is on it. If MISS or BACK is reported, the ray meets the sheet nowhere ahead, except where it only touches it. Proviso: the ray does not start parallel to the conic of the same family through its start point; without it both statements fail (a ray from the centre of curvature is said to miss; a ray passing beside is given an intercept). With polynomial terms the ray is moved from the intercept of the conic by Newton's method (difference quotient over 0.00001) for the height of the surface above the ray: the point reported is the one after the first iterate whose height is below 1e-12, or after the ninth whether or not it converged; MISS is reported if an iterate is beyond the rim of the conic. Every reported intercept, also with polynomial terms, is on the ray. A point is accepted exactly if it is inside the outer diameter (if given), outside the inner diameter, and under no leg of the spider; otherwise the code names a reason that applies.", "quantifier": "all surfaces, all rays", "why_tests_cant": "Root selection depends on signs of quadratic coefficients, sheets and rim; tests trace a few rays of one telescope.", "anchors": ["py/desimeter/transform/tan2fp/raytrace/RT185v2.py:472-489", "py/desimeter/transform/tan2fp/raytrace/RT185v2.py:646-653", "py/desimeter/transform/tan2fp/raytrace/RT185v2.py:703-790", "py/desimeter/transform/tan2fp/raytrace/RT185v2.py:655-701"]}
{"id": "C99", "title": "Mirrors reflect and lenses refract", "statement": "Where a surface has a tangent plane, a mirror turns a unit direction into its mirror image with respect to the true tangent plane of the sag (conic plus polynomial), a retro reverses it, and a lens refracts it by Snell's law with the indices of the glass of the surface and the next one, on the same side, staying a unit vector; it reports total internal reflection exactly if Snell's law has no solution (grazing limit included). Irises and coordinate breaks leave the direction; the last surface never changes it. At grazing incidence the outgoing direction of a lens is not a unit vector.", "quantifier": "all surfaces, glasses, wavelengths and rays", "why_tests_cant": "The normal is assembled from derivative loops and the refraction from cross products; a wrong sign or index order still gives plausible spots.", "anchors": ["py/desimeter/transform/tan2fp/raytrace/RT185v2.py:591-644", "py/desimeter/transform/tan2fp/raytrace/RT185v2.py:796-856"]}
{"id": "C100", "title": "The path of a ray through the table of surfaces", "statement": "The frame of a surface is a rotation (roll, then pitch, then tilt) and transforming to it and back is the identity. A ray visits the surfaces in the order of the table; the outcome is OK exactly if every surface was passed. From one surface to the next it goes straight in the laboratory, meets a conic surface first at the reported point, inside its aperture, and its direction there changes by the law of the surface, in laboratory coordinates; an output coordinate break keeps the coordinates relative to the previous frame.", "quantifier": "all tables of surfaces, all starts, all wavelengths", "why_tests_cant": "Composition over arbitrary tables of surfaces with arbitrary tilts.", "anchors": ["py/desimeter/transform/tan2fp/raytrace/RT185v2.py:491-507", "py/desimeter/transform/tan2fp/raytrace/RT185v2.py:864-926", "py/desimeter/transform/tan2fp/raytrace/RT185v2.py:1410-1435"]}
{"id": "C101", "title": "Only the difference of the two ADC angles matters", "statement": "For a table with the corrector's coordinate breaks in rows 11, 15, 17, 21, everything outside the corrector centred on the axis without spider (as in the shipped DESI table), adding t to both ADC angles and turning a start around the axis by t turns the final ray by t, with the same end code; the centroid of getNine turns by t and counts as many rays. A pair of breaks with opposite rolls, placed at the break surfaces, is the same as rolling the surfaces between them around the axis.", "quantifier": "all such tables, angles, media, wavelengths and rays", "why_tests_cant": "A symmetry over all angles and rays; numerical tests sample a few.", "anchors": ["py/desimeter/transform/tan2fp/raytrace/RT185v2.py:1369-1384", "py/desimeter/transform/tan2fp/raytrace/RT185v2.py:892-899", "py/desimeter/transform/tan2fp/raytrace/DESI-ADC-2.OPT.CSV"]}
{"id": "C102", "title": "What getNine reports", "statement": "For target directions inside the unit circle, getNine gives every start of the pupil the requested unit direction, with the sign of w it has in the table, and reports the number, the mean and the standard deviation of the final laboratory positions of exactly the rays that pass all surfaces with the ADC angles set. It needs two such rays for each wavelength; with different numbers of them for different wavelengths it fails with ValueError; an empty request exits.", "quantifier": "all tables, starts, ADC angles and lists of wavelengths and directions", "why_tests_cant": "Which rays count, and that state kept between wavelengths does not leak, is not visible in a single number.", "anchors": ["py/desimeter/transform/tan2fp/raytrace/RT185v2.py:1394-1408", "py/desimeter/transform/tan2fp/raytrace/RT185v2.py:1438-1465", "py/desimeter/transform/tan2fp/raytrace/RT185v2.py:1609-1676"]}
{"id": "C103", "title": "The Echo22 transformation between sky and focal plane", "statement": "With the Echo22 plate scale, going from any point within 415 mm of the axis to the tangent plane and back returns within 0.683 microns; going from any direction within 1.632955347 deg to the focal plane and back returns within 4.32e-8 in the tangent plane. Every row of the data file up to 415 mm is reproduced within 2.16e-6 deg and 0.682 microns; both maps are increasing in radius and are the least squares polynomials of degree 5 through these rows, not inverses of each other; off the axis they commute with turning. The axis itself is not mapped to the origin but to a point 0.102 microns along x.", "quantifier": "all points of the field", "why_tests_cant": "The tests compare a few points with a tolerance; the bound over the whole disk and the optimality of the fit are statements about a continuum.", "anchors": ["py/desimeter/transform/tan2fp/echo22.py:14-103", "py/desimeter/data/Echo22Platescale.txt"]}
{"id": "C104", "title": "The fitted transformation between desimeter and platemaker", "statement": "If the points determine the displacement (only zero coefficients leave all of them in place) DM2PM.fit succeeds and the two maps are, separately, the only least squares optima in mm among the displacements with the polynomials of the object; points moved exactly by such a displacement give it back everywhere. Otherwise the fit raises LinAlgError, when only the second direction fails after the first has been replaced. The maps are not inverses of each other in general. A new object leaves all points in place; JSON keeps the object, and other methods and versions are refused.", "quantifier": "all objects with polynomial numbers 0 to 32, all data, all points", "why_tests_cant": "Optimality ranges over all coefficient vectors; degenerate data are not in the tests.", "anchors": ["py/desimeter/transform/dm2pm.py:13-110"]}
{"id": "C105", "title": "The fit of the ray trace tables", "statement": "TAN2FP_RayTraceFit.fit makes one entry for each value of ADC1 + 1000 ADC2 in the table, in increasing order, whose coefficients are the only least squares optimum in mm over the rows with that value; it raises LinAlgError if the rows of some value do not determine the 15 coefficients and ValueError for an empty table. With an interpolation that goes through its knots and at least four setups with different separations, tan2fp for a setup of the table is the fitted map of its rows conjugated by the turn by the mean ADC angle, so that rows reproduced exactly by a displacement come out exactly when that mean is 0. Different setups with the same ADC1 + 1000 ADC2 are merged into one. JSON keeps every object with consistent shapes; other methods, versions and shapes are refused.", "quantifier": "all tables, ADC angles, points and JSON dictionaries", "why_tests_cant": "The fit is not tested at all: the tests use the shipped result file; optimality ranges over all coefficient vectors.", "anchors": ["py/desimeter/transform/tan2fp/raytracefit.py:71-167", "py/desimeter/transform/tan2fp/raytracefit.py:168-212"]}
{"id": "C106", "title": "Fiber assignment positions are the targets seen from the tuned pointing, turned rigidly to the requested field rotation", "statement": "fiberassign_radec2xy_cs5 points the telescope by two Newton steps that bring the tile centre to the centre of the focal plane (a singular Jacobian raises LinAlgError; a step leaves a residual of at most 2 eps (1 + 3600(|dra|+|ddec|)) mm where the optics are affine within eps), places every target with radec2tan and tan2fp (and dm2pm) for that pointing and turns all positions about the origin by f - m. m is the mean of the sines of the angles from sky offsets to positions of the targets beyond 10 mm, so the mean rotation realised differs from the request f by at most B^3/6 for angles up to B, whatever f; another request only turns the result. Without a target beyond 10 mm all positions are nan. Different sizes and a single ADC angle are refused; no angles means those of platemaker. The inverse turns the positions by the rotation measured on them and goes back to the sky for the same pointing; the flat versions keep the azimuth, use the arc length for the radius and come back within 4.05 micrometres.", "quantifier": "for all tiles, targets, ray trace tables, interpolations, platemaker transformations, options and requested rotations", "why_tests_cant": "The rotation is measured with a linearised estimator and the pointing with finite differences; a test compares one tile with a reference and cannot tell how large the neglected terms become, nor that the request only turns the field.", "anchors": ["py/desimeter/fiberassign.py:31-35", "py/desimeter/fiberassign.py:83-310"]}
{"id": "C107", "title": "The table of the window fits holds exactly the results of the fits, one row per window", "statement": "If the fits of all windows return and no later window has the offset of an exposure the first one lacks, _process_cases returns a table with one row per window: positioner, first and last date and number of rows of the window, flags, rms, number of points, all parameters, their errors (square roots of the variances, nan for a negative one), all covariances that are not zero in every window and the exposure offsets, each under its name with the suffix of the mode; there are no other columns. A parameter a fit does not report is 0. Each fit starts with the nominal values and bounds as the one before left them. An offset whose name begins with that of another one seen (EPSILON_T_10 after EPSILON_T_1) is found only under a garbled name. A later window with an exposure new to the table ends the whole program with exit code 12; an exception of a fit is passed on; without windows the table has no columns. With the package's fit the table is complete if the first window succeeds and contains all exposures without rehoming of the later ones.", "quantifier": "all rows, windows, modes, start values, bounds, states of the module variables and fit functions", "why_tests_cant": "There is no test of the fit handler; the column bookkeeping depends on which exposures occur in which window and on what earlier calls left in the module variables.", "anchors": ["py/desimeter/posparams/fithandler.py:343-476", "py/desimeter/posparams/fithandler.py:21-38"]}
{"id": "C108", "title": "run_best_fits writes one row per window, with the static fit and the dynamic fit started from the best static parameters", "statement": "From the filtered table on: fewer than min_window rows, or a row without rehoming and fewer than 10 rehomed ones, give only the flag INVALID_AFTER_FILTER and no fit. A failed static fit gives only the flags of all windows together. All rows at one time raise KeyError, and so does an exposure of the first window whose number continues that of another one seen (1 and 10). Otherwise the table written has, sorted by end time, one row for each window whose static and dynamic fit have the same flags, with all columns of both fits and petal and device location; the dynamic fit starts with the medians of the static values over the windows whose rms is not above the quantile, the static one with the defaults, or, if some row was not rehomed, with those medians from static fits of the rehomed rows alone. With the package's fit, if the static fits succeed, the first window has all exposures without rehoming and no number continues another, every window has a row.", "quantifier": "all rows, periods, window lengths, quantiles, states of the module variables, fit and sorting functions", "why_tests_cant": "There is no test of the fit handler; the failures depend on exposure numbers and the order of positioners processed by one process.", "anchors": ["py/desimeter/posparams/fithandler.py:76-164", "py/desimeter/posparams/fithandler.py:343-476"]}
{"id": "C109", "title": "read_guide_stars_catalog keeps exactly the stars near their catalogued position at the date of the exposure", "statement": "A table without centroid or Gaia columns raises RuntimeError, and so does one with proper motions when no date is known. With a column mjd_obs the model's date becomes the mean of it; nothing else of the model changes. Otherwise the table returned has, in order, exactly the rows whose measured coordinates are less than max_sep_arcsec (in the flat approximation: difference of right ascension times cosine of the declination, and difference of declination) from the Gaia coordinates, moved by the proper motion (missing ones are zero) from their epoch to the Julian year of the date; if none is left RuntimeError is raised. Up to 2 arcsec and 89 degrees of declination each returned star is within 1.001 times the given separation on the sky. The converse is false: a star measured 0.8 arcsec from its catalogued place on the other side of right ascension 0 is dropped.", "quantifier": "all tables, dates, separations and Julian year functions", "why_tests_cant": "There is no test of it; the matches depend on the whole table and date.", "anchors": ["py/desimeter/fieldmodel.py:88-147"]}
{"id": "C110", "title": "fit_tancorr fits the correction to the guide stars in three passes and recovers an exact one", "statement": "Missing date or hexapod rotation raise RuntimeError. On success the date, sidereal time and rotation are the arguments, else those of the model, else the mean date of the stars and the sidereal time of the date; the stars used are, in order, those whose petal is in the guider metrology. Three times the least squares correction from measured to catalogued tangent plane coordinates is fitted and its offset moved into the pointing; scales, rotation, number of stars and rms are those of the third fit, and the field rotation is that of the model with them. If the catalogued coordinates seen from the pointing are exactly the image of the measured ones (not on a line, mean zero) under a rotation and a symmetric matrix, these are found, the pointing is unchanged and the rms is zero.", "quantifier": "all models, stars, metrology tables, optical transformations, sidereal time functions", "why_tests_cant": "There is no test of it.", "anchors": ["py/desimeter/fieldmodel.py:149-234", "py/desimeter/fieldmodel.py:281-297"]}
{"id": "C111", "title": "The field rotation is the mean sine of the angles by which a one degree cross is turned on the sky, in degrees as if it were an angle", "statement": "fp2radec after radec2fp gives the position back within 0.07 arcsec (3e-8 degrees without aberration and polar misalignment), above 30 degrees of altitude, if the optics undo each other there. compute_fieldrot is 180/pi times the mean of the sines of the angles by which the four ends of the cross are turned around the centre, at most 180/pi in size, and differs from the mean angle by at most a sixth of the cube of the largest; if an end falls on the centre it is not finite. At the zenith it is the sine of the hexapod rotation less that of the correction. The claim that it follows a hexapod rotation is false: turned by 90 degrees at the zenith it changes by less than 60. Without precession and aberration it depends on right ascension and sidereal time by their difference only. dfieldrotdt_physical_model is its change in arc seconds over one minute.", "quantifier": "all field models, pointings, dates, rotations, options and optical transformations", "why_tests_cant": "The tests run a few pointings without hexapod rotation and one round trip.", "anchors": ["py/desimeter/fieldmodel.py:237-252", "py/desimeter/fieldmodel.py:299-309", "py/desimeter/fieldmodel.py:451-493"]}
{"id": "C112", "title": "select_groups_of_positioners writes four disjoint groups whose members are at least 12 mm apart", "statement": "Where no positioner has more than six others nearer than 12 mm, each of the four groups consists, in order of the metrology table, of the positioners that are in no earlier group and not within 12 mm of an earlier member of the group; positioners at different places in one group are then at least 12 mm apart. Whatever the layout, the groups are disjoint, and a positioner left out of all four is near an earlier member of each. Each csv file lists the device ids of the members in order and the .list file is a Python list of them. It is false that every positioner is in a group (five close ones), and that two in a group are always 12 mm apart: those at exactly the same place are not told apart.", "quantifier": "all metrology tables and all neighbour searches returning the seven nearest", "why_tests_cant": "There is no test of it; the groups depend on the whole table.", "anchors": ["bin/select_groups_of_positioners:11-58"]}
{"id": "C113", "title": "desi_fit_circles lists the positioners and pinholes seen often enough, with the centre of their circle or their median position", "statement": "With pinhole numbers of one digit the output has each pair of location and pinhole at most once, and exactly those with positive location which appear exactly once in at least six tables, whose expected position in the first table (or the first one where they are single) has nonzero x, and whose position is within 3 mm of it. The position of a pinhole is the median of the measured x and y where x is not zero; that of a positioner is the centre of the circle fitted on the curved focal surface, if the x values have a variance of at least 1 and the fit is accepted. The run fails only (TypeError) when a positioner is in six tables or more, always at x = 0. Points on a circle of radius 1 to 5 give its centre. The claim that only positioners that do not move are left out is false: all around a circle of radius 1.25 mm the spread in x is below 1 mm.", "quantifier": "all lists of tables and least squares solvers (solvers that do not increase the sum of squares, for the circle)", "why_tests_cant": "There is no test of it; the fit depends on an iterative solver.", "anchors": ["bin/desi_fit_circles:23-141"]}
{"id": "C114", "title": "update_focal_plane_metrology_patch gives each device of the patch the medians of its unambiguous sightings", "statement": "With pinhole numbers of one digit and device numbers of up to three, the new patch has the same rows in the same order and the same other columns. X_FP and Y_FP of a row are the medians of the x and y of the device over the files with exactly one spot of it, in either format of the files (LOCATION, or PETAL_LOC and DEVICE_LOC); they are unchanged if there is no such file, and rows of the same device do not disturb each other. Updating again with the same files, or with the positions of the patch itself (different devices), changes nothing. The claim that the new position is one of the measured ones is false.", "quantifier": "all patches and lists of spot tables", "why_tests_cant": "There is no test of it; several sightings and repeated rows interact through the medians.", "anchors": ["bin/update_focal_plane_metrology_patch:22-61"]}
{"id": "C115", "title": "detect_and_match_moving_positioners writes each moved positioner at most once, with its closest moved spot", "statement": "Spots of two tables are paired one to one with the nearest neighbour. Each row written is a positioner of the metrology listed as moved, with a spot that moved by more than the minimum and less than the maximum; the positioner is the nearest one to the spot, and the spot lies between the minimum distance and the maximum radius of its centre. A positioner appears at most once, and no other spot whose nearest positioner it is lies closer. Nothing is written when no moved positioner is in the metrology, or when no row remains. The claim that a moved spot within the limits of the only moved positioner is always reported is false.", "quantifier": "all spot tables, metrology tables and lists of moved positioners", "why_tests_cant": "There is no test of it; pairing, filtering and duplicate removal interact for arbitrary tables.", "anchors": ["bin/detect_and_match_moving_positioners:79-194"]}
{"id": "C116", "title": "fit_posparams fits the last file of each positioner, and its pool neither reports failures nor survives an exit", "statement": "A file is recognized if its base name without extension starts with a letter and five digits (ASCII) and its extension is csv; for each positioner exactly the last of its recognized files is fitted. Without recognized files the run exits with code 0; a number of processes below one is a ValueError. With one process the results are printed in order up to the first failure, which ends the run. Otherwise exactly the results of the fits that return one are printed, in some order: a fit that raises is not mentioned, and after a fit that exits the run never ends. The claims that a failed fit is noticeable, and that every recognized file is fitted, are false.", "quantifier": "all lists of files, outcomes of the fits, orders of completion and numbers of processes", "why_tests_cant": "It depends on the interleaving of a process pool and on arbitrary failures in the workers.", "anchors": ["bin/fit_posparams:80-128"]}
{"id": "C117", "title": "compute_distance_from_center: the distance of the last spot of each device, and counts that miss a distance of zero", "statement": "Each device has one entry: the distance of its last matched spot from the first metrology row at the location of the spot, or -1 if the device was asked for and has no spot; without a list of positioners exactly the devices with a spot have an entry. The printed numbers count the entries above zero (matched), below zero (unmatched), and above zero and below 3, 4, 5 and 6 mm; the lists name exactly the devices in (3,4], (4,5], (5,6] and above 6 mm. Entries at exactly zero are in neither count. The claim that matched and unmatched add up to the positioners asked for is false.", "quantifier": "all tables of spots, metrology tables and lists of positioners", "why_tests_cant": "There is no test of it; repeated locations and repeated spots interact through the dictionary.", "anchors": ["bin/compute_distance_from_center:28-85"]}
{"id": "C118", "title": "desi_fit_fvc2fp_using_posparams: which centres are fitted, and a similarity is recovered exactly whatever the minimizer returns", "statement": "The fit uses, of the files that exist and have centres (OFFSET_X before OFFSET_X_STATIC), the rows without flag and with an error below the limit as far as these columns exist, each with the last metrology row of its positioner. Both fits keep the camera scales and have the requested terms, with the unique best coefficients for their scale, rotation and offsets; the second fit is over the centres within 0.08 mm after the first. If some transformation without terms takes the pixels of all centres to their places, the result equals it on all pixels, whatever scale, rotation and offsets the minimizer returned. If the centres are at their places and the initial transformation has no displacement, transformation and patch are unchanged. Without the terms 0, 1, 2 and 27 the script exits with 12; without a usable file it is a ValueError. The claim that the first fit starts from the displacement of the initial transformation is false: its coefficients are used with other terms.", "quantifier": "all tables of parameters, metrologies, initial transformations, lists of terms and minimizers", "why_tests_cant": "There is no test of it; exactness is over all pixels and all results of an external minimizer.", "anchors": ["bin/desi_fit_fvc2fp_using_posparams:31-160", "py/desimeter/transform/zhaoburge.py:266-336"]}
{"id": "C119", "title": "fithandler._read: the table of moves read from a file, and when it is refused", "statement": "With the columns it needs, a move after a rehoming among the selected rows (or the rehoming forced) and one POS_ID, the one asked for, the table read has exactly the selected rows in the order of their dates as text; missing gear calibrations are 1, CTRL_ENABLED is true for True, true, TRUE, Yes, yes, YES, the number 1 and the truth value, and SEQUENCE_ID is the rank of the exposure among the selected ones, so that two rows share it exactly if they are of one exposure and the numbers have no gap. The table is invalid (None) exactly if one of the other columns is missing or a selected row has another POS_ID. A missing EXPOSURE_ID, DATE, RECENT_REHOME, LOG_NOTE (with a selection) or pair of POS and GEAR_CALIB columns is a KeyError; no selected row after a rehoming, in particular no row at all, is a RuntimeError. The claim that the number of an exposure does not depend on the selection is false.", "quantifier": "all tables, sets of columns, selections and sorting functions", "why_tests_cant": "The tests read no file of moves; the claim is about every set of columns and every order numpy may choose for ties.", "anchors": ["py/desimeter/posparams/fithandler.py:166-219", "py/desimeter/posparams/fithandler.py:493-504", "py/desimeter/posparams/fithandler.py:543-553"]}
{"id": "C120", "title": "run_best_fits from the file on: the rows that are fitted", "statement": "An invalid table gives a file with only the flag INVALID_TABLE, and an exception of the reading ends the run. Otherwise the rows fitted are enabled rows, exactly one for each move sequence number that occurs among the enabled rows, in the order of their times, with petal coordinates computed for the petal of the row with the first date; if there are none or fewer than min_window, only the flag INVALID_AFTER_FILTER is written. A petal without alignment is a KeyError. A table of parameters is written only if all rows fitted have one petal and one device; the claim that each row is converted with its own petal is false.", "quantifier": "all tables, fit functions, clocks, date parsers, transformations and module states", "why_tests_cant": "There is no test of run_best_fits on a file with disabled or repeated moves; the statement is over all files and all fit functions.", "anchors": ["py/desimeter/posparams/fithandler.py:50-164", "py/desimeter/posparams/fithandler.py:221-275"]}
{"id": "C121", "title": "turbulence.solve_files: the table returned for an expected and a measured table", "statement": "If no location is twice in the expected table and no expected location is twice in the measured one, every measured row comes back in its place. For a location that is expected, XNEW, YNEW is the measured position less DXTURB, DYTURB, the turbulence the solver of the mode finds for that row from the offsets, measured less expected, of all common locations at the expected positions; for other locations the four columns stay NaN. An exception of the solver is passed on. With the fixed covariance the solution always exists, and with excludeself the turbulence of a row is the one predicted at its expected position from the other rows alone. A location twice in the expected table, an unknown mode or (after the solver has run) an expected location measured twice is a ValueError; repeated locations that are not expected do no harm.", "quantifier": "all tables, modes, keywords without predict_at, sorting functions and optimisers", "why_tests_cant": "The tests do not call solve_files; the claim is about all tables with missing, extra and repeated locations in any order.", "anchors": ["py/desimeter/turbulence.py:264-286", "py/desimeter/turbulence.py:324-360", "py/desimeter/match_positioners.py:25-35"]}
{"id": "C122", "title": "turbulence.empirical_covariance: what is in a bin", "statement": "With ascending edges above all separations, the k-th value is the mean of the products of the offsets over all ordered pairs of spots, a spot with itself included, whose separation is at least the k-th and below the next edge (0 if there is none), and its place is the middle of the bin. Without edges the bins have one width from 0 to 0.1 beyond the largest separation, every pair is in one bin, and the values weighted with the numbers of pairs add up to the square of the sum of the offsets. If a pair is not below the last edge, the two arrays of values are one longer than the array of places: the claim that the three have one length is false, as is the claim that a value is a mean over pairs of different spots. No spots without edges, or an empty list of edges, is a ValueError.", "quantifier": "all spots, offsets, numbers of bins and ascending edges", "why_tests_cant": "The tests do not call it; the statement is about all sets of spots and edges.", "anchors": ["py/desimeter/turbulence.py:608-630"]}
{"id": "C123", "title": "desi_fit_fvc2fp_using_theta_centers: the transformation that takes the centres of circles to their places", "statement": "The pairs fitted are, from the files that are there, in order, the centre of every circle and its place: that of its table, or with another metrology that of the last row with its location and pinhole (the origin if there is none). Both fits have the best coefficients for their scale, rotation and offsets, the second for the circles within 0.08 mm of their places after the first; the terms are those asked for and the frame of the camera stays. If a transformation without terms takes the pixels of all centres to their places, the result is that map on all pixels; if the centres are at their places already and the initial transformation has no displacement, nothing changes. Missing mandatory terms, or another metrology and a first table without LOCATION or PINHOLE_ID, exit with 12; a first table without places is a KeyError; no file is a ValueError. The claims that a circle the other metrology does not have is left out, and that the match is by location and pinhole for pinhole numbers of 10 or more, are false.", "quantifier": "all tables, metrologies, initial transformations with usable scales, valid terms and minimisers", "why_tests_cant": "The script has no test; the statement is about all tables and every result of the minimiser.", "anchors": ["bin/desi_fit_fvc2fp_using_theta_centers:26-129", "py/desimeter/transform/zhaoburge.py"]}
{"id": "C124", "title": "write_fvc_image_processing_scripts: the job files that process a list of images", "statement": "The table has one row (date and output) for every frame of every image of the list, in order, and the job files together one task, in order, for each frame whose table and transformation are not both there already. Lines with 'primary' and images that cannot be opened have no frames; an image of one HDU has that one, one of several those after the first with F0 in EXTNAME, up to the first EXTNAME that is not a string; a frame has a date (DATE-OBS, else DATE, trimmed, up to the first dot, without 'astropy'). Outputs are named after the image (extension removed, dots to dashes), the extension and the date. With n>=1 tasks asked for and at most m frames per image every file but the last has at least n and all have fewer than n+m tasks; with n<=0 every image starts a file. The files have different names and contain exactly the lines of their tasks. Running them processes an output at most once and only if DONE.txt has no line for it, then all have a line, and a second run does nothing, whether or not the processing succeeded. An empty list is a NameError. The claims that a file has at most n tasks, that the job files are made executable (chmod gets names of images) and that all images of the list are processed (images of one name in two directories have one output) are false.", "quantifier": "all lists of lines, contents of images, existing files, options and numbers of tasks; all greps that find a name in its own line", "why_tests_cant": "The script has no test; the statement is about every list and every set of existing outputs.", "anchors": ["bin/write_fvc_image_processing_scripts:20-129"]}
{"id": "C125", "title": "desi_fit_field_rotation_rate: the cubic for the rate of the field rotation", "statement": "The coefficients printed are those of the one cubic in x = sin(HA) and y = (Dec-30)/30 with the smallest sum of squared deviations from the rates of the good rows (before the date of the split, rate not 0, guide rms below 200, more than 30 iterations, slope error below 0.2), each cut to three decimals towards 0, in the order 1, x, y, xy, x^2, y^2, x^3, x^2 y, x y^2, y^3. The script stops with LinAlgError if and only if a cubic other than 0 is 0 at all good rows, so with good rows of one declination or one hour angle only. Rates that follow a cubic with coefficients of three decimals give exactly these. The largest deviation reported bounds all and is taken by one row, the chi square is that of the rates and slope errors, and the rms is about the mean deviation. The claim that the coefficients are rounded to the nearest third decimal is false.", "quantifier": "all tables of guide data and dates of the split", "why_tests_cant": "The script has no test; optimality is a statement about all cubics and all tables.", "anchors": ["bin/desi_fit_field_rotation_rate:34-64", "bin/desi_fit_field_rotation_rate:113-122"]}
{"id": "C126", "title": "check_moving and get_petal_loc: which moves moved the positioners", "statement": "If all petals have a location, the petals come in the order of their locations, and for each there is, in the order of the names, one line for every positioner with at least two moves that have a ptl_x. The line has the location of the petal, the bus of the first row of the positioner and one flag for each two successive ones of these moves in the order of their index: it is set if and only if both have both coordinates and the distance is more than 0.05 mm. A petal without a location is a KeyError before anything is read. Petals 0 to 11 have a location, those from 2 on the ten locations, each one, and 0 and 1 that of petal 4. The claim that a positioner found at two places farther apart than 0.05 mm has a flag is false.", "quantifier": "all lists of petals, tables of moves with missing values, and sorting functions", "why_tests_cant": "Neither the script nor get_petal_loc has a test; the statement is about all tables.", "anchors": ["bin/check_moving:49-89", "py/desimeter/dbutil.py:46-63"]}
{"id": "C127", "title": "write_gfa_patch: corners of the guide cameras from planes fitted to stars", "statement": "The script writes the corners 1 to 4 of the petals 0, 2, 3, 5, 7 and 8 if the package metrology has only petals 0 to 9 and eight corners of each number on measured petals, the current metrology has each corner of the petals 0, 2, 5 and 8 once, and all six petals have an alignment; otherwise it ends with an AssertionError for the tables or a KeyError for the alignment. X_FP and Y_FP of a corner are the plane of the petal at the pixel of the corner, minus 2.23 mm times the slope of the sensor spanned by the planes at corners 1 to 3 and the heights of the tables: nothing of the first guess is left, and the ten turns give what two turns give. If the first guess of these three corners is on a line seen from above or not a number, no corner of the petal is a number. With the written corners as metrology, gfa2fp takes every pixel exactly to the plane. Petal coordinates are written only for petals 3 and 7; for a petal that is only turned about the axis ptl2fp takes them to the written X_FP, Y_FP. The petal numbers are inverse to get_petal_loc.", "quantifier": "all metrology tables, alignments, heights, pixels and sorting functions", "why_tests_cant": "The script has no test; that the iteration ends at the exact inverse of gfa2fp holds for all tables, which no finite list of tables shows.", "anchors": ["bin/write_gfa_patch:13-320", "py/desimeter/transform/gfa2fp.py:59-117"]}
{"id": "C128", "title": "desi_predict_fieldrot and read_hexrot_deg: inputs of the predicted field rotation", "statement": "Without a header file, the rotation is predicted for the given RA, Dec and MJD with the given LST, else RA + HA, else the sidereal time of the MJD, and the given hexapod angle in arcsec over 3600; if RA, Dec or MJD is missing the script ends with status 12, except that it fails with a TypeError when no LST can be computed (no LST, and HA without RA or neither HA nor MJD). With a header file the options are ignored: the header is that of HDU 0 if it has TARGTRA, else of HDU 1 if that has it, else status 12; the sidereal time is 15 h + m/4 + s/240 degrees of TCSST, else that of the MJD; the hexapod angle is the sixth entry of FOCUS over 3600 (a text with commas or a tuple of six entries, everything else a ValueError, no FOCUS a KeyError) if the header has HEXPOS, else 0. The rate is within 1.5 arcsec per minute, or fails after the first line beyond 90 degrees of declination. The claims that the hexapod angle of a header is used and that missing options end with status 12 are false.", "quantifier": "all options, headers, texts, float conversions and field rotation functions", "why_tests_cant": "Neither the script nor read_hexrot_deg has a test; the combinations of present and missing inputs with all texts are infinite.", "anchors": ["bin/desi_predict_fieldrot:33-83", "py/desimeter/io.py:7-33"]}
{"id": "C129", "title": "write_focal_plane_metrology: petal metrology, patches and device numbers as one table", "statement": "The table written is: the rows of the petal metrology of petals below 10 and more than 1 mm off the axis, in order, taken to the focal plane by the alignment of their own petal, with the pinhole number the digit after M, else the number, else 0; then the patch: for each location and pinhole all rows become the last row of the patch (with --no-replacement they stay), a new one is added once (the last, or with --no-replacement the first), rows without location are never replaced and always added, all rows keep their place; then the camera patch: the camera rows of petals with a patch row without petal coordinates are dropped and all patch rows are added at the end, those rows with petal coordinates from the focal plane that go back to it up to the height of the petal; then x and y in the focal plane of each corner in the last patch are replaced by those of its last row, and this succeeds iff each row of that patch has exactly one corner (none is an IndexError, several a ValueError). Each row has the numbers of the last device at its location (positioners and fiducials) and the petal number of the first row of its petal; rows without device get location -1. A row that no patch concerns is in the output unchanged. It is written whenever the pinhole texts are read, the petals are aligned, the devices are known, and each corner of the last patch is once in the camera patch, which replaces the cameras of its petal. The claims that petal and focal plane coordinates of the output agree, that a corner is in the table once, and that different pinhole texts give different numbers are false.", "quantifier": "all tables, alignments, integer conversions and both settings of --no-replacement", "why_tests_cant": "The script has no test; the order of four tables with repeated, masked and missing keys has infinitely many cases.", "anchors": ["bin/write_focal_plane_metrology:22-135"]}
