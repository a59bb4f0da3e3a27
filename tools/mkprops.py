import json
P=[]
def p(id,title,statement,quant,why,anchors):
    P.append(dict(id=id,title=title,statement=statement,quantifier=quant,why_tests_cant=why,anchors=anchors))
D='src/tad_dftd4/'
disp=D+'disp.py'; base=D+'dispersion/base.py'; two=D+'dispersion/twobody.py'; three=D+'dispersion/threebody.py'
d4=D+'model/d4.py'; d4s=D+'model/d4s.py'; mb=D+'model/base.py'; df=D+'damping/functions.py'; ld=D+'damping/parameters/loader.py'; ut=D+'utils.py'
p('C01','Two-body energy has the textbook closed form','For well-shaped inputs and rational damping, dispersion2 returns, for every molecule of the batch and every atom i, exactly -1/2 * sum over the other real atoms j within the cutoff of s6*C6/(r^6+R0^6) + s8*3*Qi*Qj*C6/(r^8+R0^8) (+ s10*49/40*9*Qi^2*Qj^2*C6/(r^10+R0^10) when s10 is given), with R0 = a1*sqrt(3 Qi Qj)+a2; no other term, index or factor enters.','all batch shapes, atom counts, atomic numbers (0 = padding), positions, C6 matrices, r4r2 values, damping parameters and cutoffs','The tensor program is a chain of unsqueeze/broadcast/mask operations; tests compare a handful of molecules to stored numbers with tolerances, they cannot show the indices line up for every batch shape and size.',[f'{two}:dispersion2',f'{df}:RationalDamping._f'])
p('C02','Three-body energy has the Axilrod-Teller-Muto closed form','get_atm_dispersion returns for atom i exactly 1/6 * sum over j,k (i,j,k pairwise distinct and real, pair distances ij and jk within the cutoff) of s9*C9_ijk*(3 cosA cosB cosC + 1)/(r_ij r_ik r_jk)^3 / (1 + 6 (R0ij R0ik R0jk / (r_ij r_ik r_jk))^(alp/3)), where the cosines are those of the triangle of the three positions.','all batch shapes, atom counts, positions (distinct atoms not coincident), C9 tensors, radii, s9, alp, cutoff','The code uses an algebraic rewriting (0.375*s/r5 + 1/r3) over broadcast squared distances; equality with the angular formula for all geometries is an identity over the reals, not a finite check.',[f'{three}:get_atm_dispersion',f'{df}:ZeroDamping._f'])
p('C03','Two-body matrix and atom-resolved outputs agree','With as_matrix=True the result is the full matrix of pair energies, symmetric with zero diagonal, and the atom-resolved result is 1/2 of its row sums; the molecular sum of the atom-resolved energies equals the sum over unordered pairs.','all batches and sizes, all damping functions, symmetric C6','Requires summation identities for every size.',[f'{two}:dispersion2'])
p('C04','Molecular ATM energy counts each unordered triple once','For symmetric C9 and radii, and when every distance is within the cutoff, the sum over atoms of the ATM energies equals the sum over unordered triples i<j<k of the triple energy.','all sizes, geometries, symmetric C9/radii','Universally quantified combinatorial identity (factor 6 and the masks).',[f'{three}:get_atm_dispersion'])
p('C05','Padding and batching do not change a molecule','Adding padding atoms (atomic number 0), anywhere or at the end, and/or putting a molecule in a batch with any others leaves every energy of its real atoms unchanged, and padding atoms get energy exactly 0.','all molecules, all batch shapes, all numbers of padding atoms, arbitrary padding coordinates','Tests pack two molecules; the claim ranges over all batches.',[f'{two}:dispersion2',f'{three}:get_atm_dispersion',f'{base}:Disp.calculate'])
p('C06','Permutation equivariance','Reordering the atoms of a molecule reorders the atom-resolved energies in the same way (and so leaves the total energy unchanged), for D4 and D4S models.','all permutations, molecules, parameters','Factorially many reorderings; masks and asymmetric cutoff tests could break it silently.',[f'{disp}:dftd4',f'{base}:Disp.calculate'])
p('C07','Rigid-motion invariance','Translating, rotating or reflecting all positions leaves every energy unchanged (provided the external CN and charge models are invariant).','all molecules, all isometries','Continuum of motions.',[f'{disp}:dftd4',f'{two}:dispersion2',f'{three}:get_atm_dispersion'])
p('C08','Two-body cutoff is a sharp inclusive cutoff','A pair contributes to the two-body energy iff its distance is <= cutoff.disp2; beyond it, it contributes exactly zero, and moving an atom that stays beyond the cutoff of everything changes nothing (for fixed C6).','all geometries and cutoffs','Boundary behaviour for all geometries.',[f'{two}:dispersion2',f'{D}cutoff.py:Cutoff'])
p('C09','Three-body cutoff: exactly two of the three distances are tested','For the energy of atom i, a triple (i,j,k) is kept iff r_ij and r_jk are <= cutoff.disp3. The distance r_ik is never tested (the code tests r_jk twice), so the natural claim "a triple with any distance beyond the cutoff contributes nothing" is false: a concrete triple with one long edge contributes.','all geometries and cutoffs','Only a specific geometry relation (two short edges, one long) exposes it; default cutoffs hide it in all test molecules.',[f'{three}:get_atm_dispersion'])
p('C10','Size consistency','If two groups of atoms are separated by more than both cutoffs (and CN, charges of each atom do not depend on the other group), the energies are those of the isolated groups.','all pairs of fragments and separations','Universally quantified over fragments.',[f'{disp}:dftd4',f'{two}:dispersion2',f'{three}:get_atm_dispersion'])
p('C11','Two-body energy is attractive','With nonnegative s6, s8 (and s10), C6 and r4r2, and positive damping radius, every atom-resolved two-body energy is <= 0, and is finite even for coincident atoms.','all inputs in that range','Sign claim over a continuum.',[f'{two}:dispersion2',f'{df}:RationalDamping._f'])
p('C12','Energies are linear in the scaling parameters','The energy is affine-linear in s6, s8, s10, s9: doubling s9 doubles the ATM part, and s9=0 with s6=s8=0 gives exactly zero energy.','all inputs','Continuum.',[f'{two}:dispersion2',f'{three}:get_atm_dispersion'])
p('C13','Explicit partial charges override the total charge','When q is passed to dftd4 the result does not depend on the total charge argument nor on cutoff.cn_eeq nor on the EEQ model at all.','all inputs','Non-interference over all inputs.',[f'{base}:Disp.calculate',f'{disp}:dftd4'])
p('C14','The standard three-body term ignores charges','The ATM part of dftd4 (D4ATMApprox, charge_dependent=False) is the same whatever q or total charge is used.','all inputs','Non-interference.',[f'{three}:C9ApproxMixin.get_c9',f'{disp}:dftd4'])
p('C15','Shape validation','calculate raises ValueError when positions, rcov, r4r2, rvdw or q have shapes inconsistent with numbers, RuntimeError when q is given but no registered term needs it, and whenever it returns, the result has exactly the shape of numbers. For well-shaped inputs with complete parameters it never raises.','all shapes and inputs','All shape combinations.',[f'{base}:Disp.calculate'])
p('C16','rcov and cutoff.cn have no effect','The values of rcov (only its shape is checked) and of cutoff.cn never influence any result.','all inputs','Non-interference; a test can only show some values.',[f'{base}:Disp.calculate',f'{D}cutoff.py:Cutoff',f'{disp}:get_properties'])
p('C17','Register/deregister histories','After any history of register and deregister calls on a Disp object, the energy is the sum of the energies of the multiset of currently registered terms; deregister removes exactly one equal term (ValueError if none); register followed by deregister of an equal term restores the energy function; the order of registration does not matter; other Disp objects are unaffected.','all histories over all objects','Histories are unbounded.',[f'{base}:Disp.register',f'{base}:Disp.deregister',f'{base}:DispTerm.__eq__',f'{df}:Damping.__eq__'])
p('C18','Model selection','Disp accepts exactly the model keys d3, d4, d4s, d5 case-insensitively and raises ValueError for any other string; the class-specific ALLOWED_MODELS restrictions of DispD4/DispD3 are never consulted; "d5" passes construction and then always fails with ValueError at calculate; a model instance is used as is, and model_kwargs are then ignored.','all strings / models','All strings.',[f'{base}:Disp.__init__',f'{base}:Disp.get_model',f'{D}dispersion/d4.py:_DispD4',f'{D}dispersion/d3.py:_DispD3'])
p('C19','Default coordination number function','Without cn_fn, the CN function is chosen by the first of the digits 3, 4, 5 found (in that priority) in the model key or class name: d3/d5 -> cn_d3, d4/d4s -> cn_d4; anything else raises ValueError.','all keys and class names','All names.',[f'{base}:Disp.__init__'])
p('C20','Rational damping bounds','For positive radius, the order-n rational damping value lies in (0, 1/R0^n], is at most 1/r^n, is strictly decreasing in r and tends to 1/r^n relative error 0 as r grows.','all distances, radii, parameters, orders','Continuum.',[f'{df}:RationalDamping._f'])
p('C21','Zero damping formula','ZeroDamping called with (r, R0) evaluates 1/(1+6 (rs r/R0)^alp), i.e. the documented formula with distance and radius exchanged: as used by the ATM term (called with (R0, r)) it is the documented damping, but as a two-body damping function it tends to 1 at short range and to 0 at long range, the opposite of the documented function.','all distances, radii, parameters','Limits and all-argument equality.',[f'{df}:ZeroDamping._f',f'{two}:dispersion2',f'{three}:get_atm_dispersion'])
p('C22','Modified zero damping','MZeroDamping equals 1/(1+6 (r/(rs R0)+bet R0)^-alp)/r^n, its damping factor lies in (0,1) and increases with r.','all arguments in range','Continuum.',[f'{df}:MZeroDamping._f'])
p('C23','Optimised-power damping','OptimisedPowerDamping evaluates r^bet/(r^bet r^n + R0^bet r^n) = 1/(r^n (1+(R0/r)^bet)), which diverges as r->0 for orders above bet instead of the documented finite limit r^bet/(r^(bet+n)+R0^(bet+n)).','all arguments in range','Continuum, limit behaviour.',[f'{df}:OptimisedPowerDamping._f'])
p('C24','Damping parameter validation','A damping call raises TypeError for an unknown parameter name or when a parameter required for the order is missing or None; ValueError for orders a function does not implement; the declared class defaults of a1, a2, rs6, rs8, bet are never used. A dftd4 call without a1 or a2 always raises TypeError.','all parameter dictionaries and orders','All dictionaries.',[f'{df}:Damping.__call__',f'{df}:Damping.__init_subclass__'])
p('C25','Omitted s8 means no C8 term','If param has neither s8 nor rs8, the order-8 contribution is exactly zero (as with s8=0), although defaults.S8 is 1.0; omitted s6 means s6=1; omitted s10 means no C10 term; omitted s9, alp mean 1 and 16 in the ATM term.','all inputs','Non-trivial interplay of two default mechanisms for all inputs.',[f'{two}:dispersion2',f'{df}:Damping.__call__',f'{three}:ATM.calculate'])
p('C26','Reference weights are normalised','With ga=0 (no charge scaling) the weights of each real atom are nonnegative and sum to exactly 1 over the references (exact arithmetic), for D4 and for every partner in D4S; absent references and padding atoms have weight exactly 0. In general every weight lies in [0, exp(ga)].','all atoms, CN, charges, wf>0','Continuum.',[f'{d4}:D4Model.weight_references',f'{d4s}:D4SModel.weight_references'])
p('C27','Weights never become NaN through underflow','In IEEE arithmetic, whatever (non-NaN) CN is given, the normalised Gaussian weights are never NaN, lie in [0,1], and if all Gaussians underflow exactly the one reference with the largest reference CN gets weight 1.','all IEEE CN values, all elements 1..103','All floating point values.',[f'{d4}:D4Model.weight_references',f'{ut}:is_exceptional'])
p('C28','with_dgwdcn returns minus the derivative','The tensor returned for with_dgwdcn is exactly the negative of the derivative of the weights with respect to the coordination number (the documentation says derivative).','all CN, charges, elements','Continuum; the test suite compares with a flipped sign.',[f'{d4}:D4Model.weight_references'])
p('C29','with_dgwdq returns the derivative','The tensor returned for with_dgwdq is the derivative of the weights with respect to the charge up to the eps regularisation (exact when eps=0; in general the ratio is ((qmod-eps)/qmod)^2).','all charges with qmod != 0, elements','Continuum.',[f'{d4}:D4Model.weight_references',f'{mb}:BaseModel._dzeta'])
p('C30','Charge scaling function','zeta lies in (0, exp(ga)], is exp(ga) for qmod<=0, is decreasing in qmod for qmod>eps, and equals 1 at the reference charge when eps=0; but it is not monotone across 0: for 0<qmod<eps it drops far below 1 (exactly opposite limit).','all gam>=0, qref>0, qmod, ga>=0','Continuum; the window is narrower than machine eps.',[f'{mb}:BaseModel._zeta'])
p('C31','C6 matrix is symmetric and nonnegative','get_atomic_c6 of the model weights is symmetric in the atom pair and nonnegative, zero for padding, for D4 and D4S (D4S even though weights are partner dependent); it is strictly positive for two real atoms other than cerium.','all molecules, CN, charges','All inputs.',[f'{d4}:D4Model.get_atomic_c6',f'{d4s}:D4SModel.get_atomic_c6',f'{mb}:BaseModel._get_refc6'])
p('C32','C6 is the Casimir-Polder integral of the weighted polarizabilities','For D4, get_atomic_c6(gw) equals trapzd_noref(get_weighted_pols(gw)); hence C6_ij^2 <= C6_ii C6_jj.','all molecules and weights','Bilinear identity for all sizes, Cauchy-Schwarz.',[f'{d4}:D4Model.get_weighted_pols',f'{ut}:trapzd',f'{ut}:trapzd_noref'])
p('C33','D4S with uniform weighting factors reduces to D4','If every pair weighting factor equals wf, the D4S weights for every partner, and the C6 matrix, equal those of D4 with that wf.','all molecules, CN, charges, wf','Continuum.',[f'{d4s}:D4SModel.weight_references',f'{d4s}:D4SDebug',f'{d4}:D4Model.weight_references'])
p('C34','D4S weighted polarizabilities average over the wrong atom index','D4SModel.get_weighted_pols(gw)[m] is 1/nat * sum over ALL atoms n of the polarizability of n (in the presence of m), not the polarizability of atom m; with uniform weighting factors all atoms get the same value, unlike D4. For batched numbers it raises a broadcasting error unless sizes coincide.','all molecules','All sizes.',[f'{d4s}:D4SModel.get_weighted_pols'])
p('C35','Polarizabilities','Reference polarizabilities are nonnegative and zero for absent references; get_polarizabilities is nonnegative, has shape (..., nat) for D4, but shape (..., nat, nat) for D4S weights.','all molecules','All inputs.',[f'{mb}:BaseModel._get_alpha',f'{mb}:BaseModel.get_polarizabilities'])
p('C36','C9 coefficients','Approximate and exact C9 are symmetric under all permutations of the three atoms and nonnegative; the approximate one equals sqrt(|C6_ij C6_ik C6_jk|) above the sqrt regularisation.','all molecules','All inputs.',[f'{three}:C9ApproxMixin.get_c9',f'{three}:C9ExactMixin.get_c9'])
p('C37','Unknown reference charges','A model built with ref_charges other than eeq/gfn2 raises ValueError at construction when rc6 is not supplied, and otherwise at the first weight_references call.','all strings','All strings.',[f'{mb}:BaseModel._get_alpha',f'{d4}:D4Model.weight_references'])
p('C38','Reference tables are consistent','For each element 1..103: reference counts are 0, 1 or 3, at least one reference exists, exactly one present reference has the maximum CN, present references have refsys in 1..17, absent references have zero polarizability; element 0 has no references. WFPAIR is symmetric and positive for real elements.','all elements and references','Finite but thousands of hand-copied entries, not covered by tests; proved by computation in the kernel.',[f'{D}reference/d4/params.py:refc',f'{D}data/wfpair.py:WFPAIR'])
p('C39','Supported elements','Atomic numbers 0..103 never cause an index error in the D4/D4S model with EEQ reference charges; 104 and above always raise IndexError; with GFN2 reference charges the limit is 86. Negative numbers are not all refused (EEQ charges): -104..-1 are accepted and get the reference C6 coefficients of element 104+z, numbers below -104 raise IndexError.','all atomic numbers','All numbers.',[f'{D}reference/d4/params.py',f'{D}reference/d4/charge_gfn2.py',f'{D}data/r4r2.py:R4R2'])
p('C40','get_params is a pure lookup under any history','Whatever calls were made before and however the caller mutated previously returned dictionaries, get_params returns exactly the entry of the TOML file (minus doi unless keep_doi).','all histories of calls and mutations','Cache + aliasing: histories are unbounded.',[f'{ld}:get_params',f'{ld}:_load'])
p('C41','get_params name handling','Functional names are not case-insensitive (contrary to the docstring): a name with an upper-case letter always raises KeyError. functional=None with variant=None always raises KeyError although a default variant exists. Method d5 raises FileNotFoundError, unknown methods ValueError.','all names and variants','All strings.',[f'{ld}:get_params'])
p('C42','Shipped D4 parameters are usable','For each functional in d4.toml, get_params with the default variant succeeds and its result is accepted by dftd4 (contains a1, a2, s8 and only known keys). The default section (functional=None) is never accepted by dftd4 (TypeError because of the damping/mbd entries), and the bj-eeq-two variant does not switch off the three-body term because s9=0 is not merged in.','all functionals in the file','117 functionals x variants x key sets; proved by kernel computation over the whole file.',[f'{D}damping/parameters/d4.toml',f'{ld}:get_params'])
p('C43','Damping objects are stateless for results','The only state a damping object carries (doi) never influences a later result, so sharing one damping instance between terms, Disp objects and calls is safe, for any history of calls.','all call histories','Histories.',[f'{df}:Damping.__call__'])
p('C44','Few-atom limits','A molecule with at most one real atom has energy exactly 0, and with at most two real atoms ATM energy exactly 0.','all inputs','All inputs.',[f'{disp}:dftd4'])
p('C45','get_properties is consistent with the energy','The C6 coefficients and charges returned by get_properties are those the two-body energy of dftd4 uses for the same system (default model, default CN function).','all molecules','All inputs.',[f'{disp}:get_properties',f'{disp}:dftd4'])
p('C46','dftd4 equals DispD4','dftd4 with default arguments gives the same result as DispD4().calculate; both equal the sum of the two terms evaluated separately.','all inputs','All inputs.',[f'{disp}:dftd4',f'{D}dispersion/d4.py:DispD4'])
p('C47','No net force','The derivative of the total energy along any rigid translation is zero.','all molecules and directions','Continuum.',[f'{disp}:dftd4'])
p('C48','Integration weights','trapzd, trapzd_noref and trapzd_atm use the same positive quadrature weights, are multilinear in the polarizabilities and symmetric.','all polarizabilities','All inputs.',[f'{ut}:trapzd',f'{ut}:trapzd_noref',f'{ut}:trapzd_atm'])
p('C49','Which parameter dictionaries a calculation accepts','A calculation with a two-body term of any damping function of the package and any three-body terms, given a dictionary binding known names to numbers, returns an energy or raises TypeError/ValueError as determined by which names are bound only (rational: a1, a2; zero: rs6, and rs8 if s8 is given, no s10; modified zero: the same and bet; optimised power: a1, a2, bet, no s10). Of the parameters shipped for D3, those of the Becke-Johnson and optimised-power variants are accepted; those of zero damping (but for slaterdirac, wb97x, cf22d) and modified zero damping are refused with TypeError, and 17 functionals have no parameters for the default variant. A parameter with a default in the signature (s6, s9, rs9, alp) may be left out without changing anything; so alp is 16 for the D3 entries, for which the file says 14.','all dictionaries of numbers, molecules, terms; all shipped entries after any history of calls','The set of dictionaries and molecules is infinite; tests use a few hand-written D4 dictionaries.',[f'{df}:Damping.__call__',f'{two}:dispersion2',f'{ld}:get_params',f'{D}damping/parameters/d3.toml'])
p('C50','Parameter data classes','Validating an entry with the data class of its variant succeeds iff the required numbers are present and returns a dictionary with every field (default where missing). The dump of RationalParams is accepted by every calculation and gives the energy of the entry except that s9 and alp of the entry are dropped (they are no fields); the dump of ZeroParams, MZeroParams and OptimisedPowerParams is refused with ValueError by every calculation with that damping function, because it contains s10. Of the shipped entries only the variants bj and bj-eeq-atm validate.','all entries, molecules, calculations','All entries and molecules.',[f'{D}damping/parameters/base.py:PARAM_MODELS',f'{D}damping/parameters/base.py:BaseParams'])
p('C51','Bit-for-bit reproducibility of a molecule','In any arithmetic (rounded or exact) in which the distance of two atoms, the coordination numbers and the charges of a molecule are functions of that molecule alone, the energies of its atoms are the same bit for bit whether it is calculated alone or at any place of any batch with any other molecules, and do not depend on the coordinates of the padding atoms (which may even be NaN).','all molecules, batches, batch shapes, terms, parameter dictionaries, arithmetics','All batches and all roundings.',[f'{base}:Disp.calculate',f'{two}:dispersion2',f'{three}:get_atm_dispersion',f'{d4}:D4Model',f'{d4s}:D4SModel'])
p('C52','Padding atoms in floating point','In IEEE arithmetic the energy of a padding atom is +0, -0 or NaN, never another number; the two- and the three-body energies are exactly +0 or -0 when the coefficients and parameters are finite, wherever the padding atom sits (also at NaN). With infinite coefficients NaN does occur.','all formats, geometries, batches','All floating point inputs.',[f'{two}:dispersion2',f'{three}:get_atm_dispersion'])
p('C53','The energy is the DFT-D4 formula of the arguments','The energy of each atom returned by dftd4, DispD4 or DispD4Exact (and by any Disp with D4 damping functions) equals one closed formula in the elements, coordinates, coordination numbers, charges, reference data and parameters: Becke-Johnson damped C6/C8/C10 sum over the other atoms with charge-scaled Gaussian-weighted C6 coefficients, plus the zero-damped Axilrod-Teller-Muto sum with the C9 coefficients at zero charge and the Becke-Johnson radii.','all molecules and batches, models D4 and D4S, charges given or from the charge model, all model and damping parameters','Every intermediate value (weights, radii, coefficients, which charges reach which term) enters; tests compare a handful of molecules with stored numbers.',[f'{disp}:dftd4','src/tad_dftd4/dispersion/base.py:Disp.calculate','src/tad_dftd4/dispersion/twobody.py:dispersion2','src/tad_dftd4/dispersion/threebody.py:get_atm_dispersion'])
p('C54','Radii used by dispersion2','Called directly, dispersion2 refuses a damping function of radius type rvdw without van der Waals radii, and unknown radius types, with ValueError; a damping function of radius type r4r2 gives the same result whatever rvdw is; without a cutoff 60 Bohr is used. Zero and modified zero damping need the radii, rational and optimised power damping ignore them.','all molecules, parameters, damping functions (also user-defined), number types','All inputs and damping functions.',['src/tad_dftd4/dispersion/twobody.py:dispersion2'])
p('C55','Energy is differentiable in the geometry away from the cutoffs','Along any path of geometries along which coordinates, coordination numbers and charges are differentiable, the energy of every atom is differentiable wherever no distance equals a cutoff and no effective charge equals zero or the regulariser, so forces exist there. It is not continuous in general: at the cutoff the energy of two atoms jumps from a negative value to zero.','all molecules, batch shapes, paths, parameters, D4 and D4S, two-body and all three-body terms','All paths and geometries.',['src/tad_dftd4/disp.py:dftd4','src/tad_dftd4/dispersion/twobody.py:dispersion2','src/tad_dftd4/dispersion/threebody.py:get_atm_dispersion'])
p('C56','Threads may share objects','When several threads calculate with the same Disp objects, damping objects and dftd4, and make and extend objects of their own, every call of every thread has the result (value or exception) that it has when nothing else runs, whatever the interleaving, although damping objects keep the order of the last call in an attribute; every thread finishes under every fair schedule; and at every moment, also after threads have been stopped in the middle of a call, the objects that existed before are unchanged and later calls give what they gave before. This holds as long as no thread registers or deregisters terms with an object that other threads use.','all numbers of threads, all jobs, all interleavings of the single accesses to objects, all points where a thread may stop, all earlier histories, all number types','All schedules and stop points.',['src/tad_dftd4/damping/base.py:Damping.__call__','src/tad_dftd4/dispersion/base.py:Disp.calculate','src/tad_dftd4/dispersion/twobody.py:dispersion2','src/tad_dftd4/disp.py:dftd4'])
p('C57','Signs and bounds of the energies','With non-negative parameters, two-body terms attract: the energy of every atom is at most zero, and strictly negative as soon as another atom is within the cutoff (elements 1-103 except cerium). The angular factor of a triple lies between -2 and 11/8, so the D4 energy of every atom lies between minus the energy of all pairs at zero distance minus twice the size of the triples, and 11/8 of the size of the triples; three-body terms are never attractive for atoms none of whose triangles within the cutoff is obtuse.','all molecules, batches, geometries, charges, parameters, D4 and D4S','All geometries: angles, distances and coefficients range over continua.',['src/tad_dftd4/dispersion/twobody.py:dispersion2','src/tad_dftd4/dispersion/threebody.py:get_atm_dispersion','src/tad_dftd4/disp.py:DispD4'])
p('C58','Errors made by the cutoffs','Increasing the two-body cutoff lowers the energy of every atom (or leaves it), and by no more than the undamped pair energies that all the other atoms would contribute at the smaller cutoff distance; the three-body energy, the coordination numbers and the charges do not change. Increasing the three-body cutoff from r changes the energy of an atom by at most 2 (downwards) or 11/8 (upwards) times the sum of s9 C9/(m r^2/2)^3 over its triples, where m is the smallest distance of two atoms of the molecule; the two-body energy, the coordination numbers and the charges do not change.','all molecules, batches, geometries, charges, parameters, all pairs of cutoffs','All cutoffs and geometries.',['src/tad_dftd4/dispersion/twobody.py:dispersion2','src/tad_dftd4/dispersion/threebody.py:get_atm_dispersion','src/tad_dftd4/cutoff.py:Cutoff'])
p('C59','Precision and device of results','When the object, the molecule and the optional arguments share one floating point precision and one device, the energies (and the four results of get_properties) have that precision and device, whatever the terms and damping functions, also when damping parameters and cutoffs are Python numbers, have another precision, or are on the CPU; no dtype or device error occurs. An object created in another precision than the positions gives energies in the higher precision, or raises when a charge-dependent term meets charges of higher precision than the object. A successful calculation never mixed devices.','all precisions (single, double), devices, default dtypes, term lists, damping functions, parameter dictionaries, optional arguments','Every combination of dtype, device and place; tests run on one device and set all dtypes alike.',['src/tad_dftd4/dispersion/base.py:Disp.calculate','src/tad_dftd4/disp.py:dftd4','src/tad_dftd4/disp.py:get_properties','src/tad_dftd4/model/d4.py:D4Model.weight_references','src/tad_dftd4/dispersion/threebody.py:RadiiBJMixin.get_radii'])
p('C60','get_params from several threads','However calls of get_params in several threads overlap, and whatever user code does to the dictionaries it has got meanwhile, every call gives a dictionary that nobody had before with exactly the content of the entry of the file, or KeyError; every call finishes after a bounded number of its own steps, whatever the other threads do; a parameter file is read at most as often as there were calls running at the same time (so once, if they do not overlap, but possibly several times otherwise).','all interleavings of any number of calls and of changes to returned dictionaries, all file contents','A race on the cache shows only for some schedules.',['src/tad_dftd4/damping/parameters/loader.py:get_params','src/tad_dftd4/damping/parameters/loader.py:_load'])
p('C61','Results of get_properties','get_properties succeeds for all molecules of supported elements and returns the coordination numbers, the charges for the given total charge (zero by default) and charge cutoff, and the C6 coefficients and static polarizabilities that the D4 formulas give for them. The C6 matrix is symmetric, not negative and satisfies the Cauchy-Schwarz inequality, C6 coefficients and polarizabilities of padding are zero and those of real atoms positive (except for cerium). They are the same for the same molecule in another batch, with more padding, with its atoms in another order, or moved rigidly.','all molecules, batches, geometries, total charges, cutoffs, all ways to embed the same molecule in a batch','All geometries and all batches.',['src/tad_dftd4/disp.py:get_properties','src/tad_dftd4/model/d4.py:D4Model','src/tad_dftd4/model/base.py:BaseModel.get_polarizabilities'])
p('C62','User-defined damping classes','Defining a subclass of Damping fails with TypeError exactly if it requires, for some order, a name that is no parameter of the function it uses. Calling an object of such a class raises TypeError, without entering the function, whenever a value required for the order is missing or None, and otherwise does what the function does; a subclass that takes its function from another class keeps the requirements of that class, whatever it declares itself. Arguments are matched with parameters by the rules of Python: TypeError exactly if a parameter is given twice or left out without default, or an excess argument is not collected; so a function that lacks one of the twelve keyword parameters handed to it, and has no **kwargs, never runs. A class without a function cannot be instantiated.','all class hierarchies (any inheritance), all requirement tables, all signatures and bodies, all orders and arguments','All hierarchies and signatures.',['src/tad_dftd4/damping/functions.py:Damping.__init_subclass__','src/tad_dftd4/damping/functions.py:Damping.__call__'])
p('C63','Signs survive rounding','In every floating point precision, and for every geometry (NaN, infinities, coinciding atoms, underflow and overflow included): the C6 coefficients of the models and of get_properties, and its polarizabilities, are never negative; with parameters and radii that are not negative, two-body terms of any damping function of the package, and three-body terms only if scaled by zero, the energy of no atom compares greater than zero.','all IEEE binary formats, all molecules, batches, geometries, coordination numbers and charges, all parameters that are not negative','Rounding, underflow and overflow over all inputs.',['src/tad_dftd4/disp.py:dftd4','src/tad_dftd4/disp.py:get_properties','src/tad_dftd4/dispersion/twobody.py:dispersion2','src/tad_dftd4/model/base.py:BaseModel.get_atomic_c6','src/tad_dftd4/damping/functions.py'])
p('C64','Automatic derivatives are the derivatives','Differentiating the energies by PyTorch, in forward mode along any direction or in backward mode with any incoming gradient, gives the derivatives of the energies: one backward pass gives, for every leaf (coordinates, damping parameters, <r4>/<r2> values, van-der-Waals radii), the exact derivative of the weighted sum of the energies of a molecule with respect to that leaf, and the values are those of the calculation without derivatives. This holds wherever the energy is differentiable: no distance at a cutoff, no effective charge at zero or at the regulariser, and square roots off their threshold; padding needs no such condition.','all molecules, padded batches, geometries, paths of coordinates and parameters, incoming gradients, D4 and D4S, two-body terms with any damping function of the package and all three-body terms','Every branch of every mask, cutoff and clamp has its own derivative; tests compare a few molecules with finite differences.',['src/tad_dftd4/disp.py:dftd4','src/tad_dftd4/dispersion/twobody.py:dispersion2','src/tad_dftd4/dispersion/threebody.py:get_atm_dispersion','src/tad_dftd4/model/d4.py:D4Model.weight_references','src/tad_dftd4/damping/functions.py'])
p('C65','Gradients of padded batches are finite','A backward pass through the energies gives finite gradients, those of the energies themselves, although masked entries (diagonal, padding atoms, pairs beyond the cutoff) are computed and then discarded: no NaN or infinity of a discarded branch reaches the gradient of any leaf. The conditions are those under which no operation is differentiated at a singular point: different atoms are at different places, no effective charge equals the regulariser, radii and parameters are in their domain. Padding atoms may be anywhere, also on top of each other or of real atoms. Two cases where the conditions fail do give NaN: <r4>/<r2> values that require gradients padded with zeros (rational damping), and the modified zero damping with padding of zero van-der-Waals radius when its parameters require gradients.','all molecules, padded batches, geometries, positions of padding atoms, incoming gradients, leaves, D4 and D4S, two-body terms with any damping function of the package and all three-body terms','A NaN appears only for the combination of a masked entry, a damping function and a leaf that meets a singular point; tests look at a few molecules and leaves.',['src/tad_dftd4/disp.py:dftd4','src/tad_dftd4/dispersion/twobody.py:dispersion2','src/tad_dftd4/dispersion/threebody.py:get_atm_dispersion','src/tad_dftd4/model/base.py:BaseModel._zeta','src/tad_dftd4/model/d4.py:D4Model.weight_references','src/tad_dftd4/damping/functions.py'])
p('C66','Energies do not overflow and are not NaN','In every floating point precision from single on, the atomic energies of a calculation are finite numbers: no NaN and no infinity, whatever the coordination numbers, the charges and the coordinates of padding atoms are (NaN included), provided the distances of the real atoms, the charge scaling factors, the parameters and the number of atoms stay within stated powers of two (single precision: distances from 1 to 64 Bohr, up to 8192 atoms, default charge scaling, parameters up to 8; double precision: distances from 2^-20 to 2^20 Bohr, 2^30 atoms). The C6 coefficients and polarizabilities of models and of get_properties are finite for every geometry.','all IEEE binary formats with at least single precision and range, all molecules and batches within the size limits, all four damping functions, all three-body terms, all coordination numbers and charges','Overflow and NaN over all inputs; the intermediate quantities (fifteenth powers of distances, products of three C6 coefficients) come close to the range of single precision.',['src/tad_dftd4/disp.py:dftd4','src/tad_dftd4/disp.py:get_properties','src/tad_dftd4/dispersion/twobody.py:dispersion2','src/tad_dftd4/dispersion/threebody.py:get_atm_dispersion','src/tad_dftd4/model/base.py:BaseModel','src/tad_dftd4/damping/functions.py'])
p('C67','Rounding errors of the two-body energy are bounded','The two-body energies of the atoms, computed in floating point with rational damping, are finite numbers and agree with the exact energies of the same input up to a relative error that is a small multiple of the machine precision: with distances accurate to kd and powers to kp rounding errors, at most ((1+u)^K - 1) times the exact energy with K = n + 10 max(kd,5) + 2 kp + 14 for n atoms (u = 2^-24 in single, 2^-53 in double precision); the pair energies of as_matrix meet the bound with n left out. There is no cancellation: the bound does not depend on the geometry, as long as no distance sits within rounding errors of the cutoff and the magnitudes stay within stated powers of two.','all IEEE binary formats with at least 6 digits, all molecules and batches (padding atoms at any coordinates), all parameters of rational damping, all cutoffs, all C6 coefficients within the magnitudes','A test compares with a tolerance on a few molecules; this bounds the error for all inputs.',['src/tad_dftd4/dispersion/twobody.py:dispersion2','src/tad_dftd4/damping/functions.py:RationalDamping'])
p('C68','Computed forces and torques add up to zero','The gradients of the energy of a molecule with respect to its coordinates, as a backward pass returns them, add up to zero over the atoms of the molecule (no net force), and so do the torques x_k g_l - x_l g_k (no net torque); more generally the gradient has no component along any differentiable family of rigid motions. The other molecules of the batch and padding do not matter.','all molecules, batches, geometries without coinciding atoms or distances at a cutoff, both models, all damping functions and terms','Continuum of geometries; identities between derivatives that finite differences only approximate.',['src/tad_dftd4/disp.py:dftd4','src/tad_dftd4/dispersion/base.py:Disp.calculate'])
p('C69','Higher derivatives','Differentiating twice or more often with PyTorch gives the higher derivatives of the energies: a backward pass through a backward pass gives, for every pair of leaves, the second derivative (entry of the Hessian) of the weighted sum of the energies of a molecule, together with the first derivative; k nested forward passes give the mixed derivative of order k, for every k. The conditions are those of first derivatives and one on exponents that are leaves: PyTorch masks powers at exponent exactly 0, so the second derivative of a power by base and exponent is wrong there (0 instead of 1/base), which concerns bet of the optimised power damping, whose default is 0, and alp.','all molecules, padded batches, geometries, pairs of leaves (coordinates, damping parameters, <r4>/<r2> values, radii), incoming gradients, orders k, D4 and D4S, all damping functions and three-body terms','Every derivative formula is differentiated again; a formula may be right to first order and wrong beyond, and only at some arguments.',['src/tad_dftd4/disp.py:dftd4','src/tad_dftd4/dispersion/base.py:Disp.calculate','src/tad_dftd4/damping/functions.py'])
p('C70','The Hessian is symmetric','The matrix of second derivatives a backward pass through a backward pass gives is symmetric: the entry for two leaves is the same number whichever of them is differentiated first, and it is the second derivative of the weighted sum of the energies of a molecule under displacements of the two leaves. At an exponent of exactly 0 that is itself a leaf the matrix is not symmetric (0 one way, 1/base the other).','all molecules, padded batches, geometries, pairs of leaves, incoming gradients, D4 and D4S, all damping functions and three-body terms','The two orders run different derivative formulas; tests compare a few entries within a tolerance.',['src/tad_dftd4/disp.py:dftd4','src/tad_dftd4/dispersion/base.py:Disp.calculate','src/tad_dftd4/damping/functions.py'])
p('C71','Sum rules of the Hessian','The second derivatives of the energies with respect to the coordinates, as two backward passes return them, respect translations and rotations: for every coordinate, the entries of the Hessian summed over all atoms of the molecule in one direction are zero; contracted with a rotation of the molecule they give the rotated gradient, so that at a stationary point rotations, like translations, are null vectors. The same holds along every differentiable family of rigid motions, and for every weighting of the atomic energies.','all molecules of padded batches, geometries at which the energy is smooth, pairs of coordinates, weights, rigid motions, D4 and D4S, all damping functions and three-body terms','Sums over all atoms of entries computed by long chains of derivative formulas; tests check a few molecules within a tolerance.',['src/tad_dftd4/disp.py:dftd4','src/tad_dftd4/dispersion/base.py:Disp.calculate','src/tad_dftd4/dispersion/twobody.py:dispersion2','src/tad_dftd4/dispersion/threebody.py:get_atm_dispersion'])
p('C72','Derivatives of get_properties and of the model methods','The C6 coefficients and polarizabilities that get_properties returns, and the reference weights and C6 coefficients of the D4 and D4S models, carry their derivatives along: gradients and Hessians from backward passes, and derivatives of any order from nested forward passes, with respect to coordinates, total charge or anything else the coordination numbers and charges depend on, are the mathematical derivatives of the returned values, wherever the charge scaling is branch-free.','all padded batches, elements, differentiable families of coordinates and charges, leaves, orders of differentiation, D4 and D4S models with any parameters','The derivative is a limit over all small displacements and the order is unbounded; gradcheck samples a few points with finite differences.',['src/tad_dftd4/disp.py:get_properties','src/tad_dftd4/model/d4.py:D4Model.weight_references','src/tad_dftd4/model/d4s.py:D4SModel.weight_references','src/tad_dftd4/model/d4.py:D4Model.get_atomic_c6','src/tad_dftd4/model/base.py:BaseModel.get_polarizabilities'])
p('C73','Results of two machines agree up to rounding','The two-body energies calculated on two machines, with different mathematical libraries, different evaluation of distances and different orders of summation, are finite on both and differ by at most twice the relative error bound of C67. They need not agree bit for bit: the last bits do depend on the order of summation.','all pairs of machines (libraries with the stated accuracy, any order of each sum), all precisions, geometries, parameters and sizes within the ranges of C67','a test sees the machine it runs on; other vector widths, thread counts and libraries are other machines',['src/tad_dftd4/dispersion/twobody.py:dispersion2','src/tad_dftd4/damping/functions.py:RationalDamping'])
p('C74','The quadrature is the Casimir-Polder integral','trapzd, trapzd_noref and trapzd_atm return 3/pi times the trapezoidal rule of the product of polarizabilities on the grid of 23 imaginary frequencies from 1e-6 to 10 Hartree, to a relative error of 2e-16; for a product that falls with the frequency this is 3/pi times its integral up to the error of the trapezoidal rule on the grid.','all polarizabilities with non-negative products, all shapes; all integrable decreasing functions for the integral','The weights and the value of pi are literals; a test with reference values fixes them only where the tested products differ from zero, and the error bound ranges over all integrands.',[f'{ut}:trapzd',f'{ut}:trapzd_noref',f'{ut}:trapzd_atm'])
p('C75','User-defined terms','A term may be of any class the user derives from DispTerm or from ATM with mixins. If every registered term keeps to its charge_dependent flag, calculate returns the sum of what each term gives alone, in whatever order they are registered; a term that raises alone makes the joint call raise the same exception. An object of a subclass of ATM can be made exactly if get_c9 and get_radii are both defined by the class body or by a mixin listed before ATM (the first definition counts), and its energies are the three-body formula with those C9 coefficients and radii. deregister removes the first term of the same class, damping class and flag. The terms of the package are the special case. The flag itself does not keep charges from calculate: without the assumption on the method the sum rule is refuted.','all lists of user-defined terms with arbitrary calculate methods (any result tensors or exceptions), all mixin lists, all calls, batch shapes and numbers of atoms','tests can only use the classes that exist; user classes are arbitrary functions',[D+'dispersion/base.py:DispTerm',D+'dispersion/base.py:Disp.register',D+'dispersion/base.py:Disp.deregister',D+'dispersion/base.py:Disp.calculate',D+'dispersion/threebody.py:ATM'])
p('C76','Rounding errors of the three-body energy are bounded','The three-body energies of the atoms, computed in floating point with zero damping, are finite numbers, and their distance from the exact energies of the same input is at most ((1+u)^K - 1) times the sum of the sizes of the triples, where the size of a triple is its energy with the absolute values of s9 and C9 and with each cosine, whose numerator the code forms by adding and subtracting squared distances, replaced by the sum of the three squared distances over the same denominator. K depends only on the accuracy of distances, powers and division, on the steepness of the damping and, as 2 n, on the number of atoms: 590 for the default parameters in single precision with three atoms, correctly rounded powers and directly evaluated distances. The bound is on the size because the energies of triples can cancel.','all IEEE binary formats with at least 24 digits and the exponent range of single precision, all molecules and batches (padding atoms at any coordinates), all C9 coefficients and scaling parameters of either sign, all radii, cutoffs and steepness parameters within stated powers of two, no distance within rounding errors of the cutoff','A test compares with a tolerance on a few molecules; this bounds the error for all inputs, including those with cancellation.',['src/tad_dftd4/dispersion/threebody.py:get_atm_dispersion','src/tad_dftd4/damping/functions.py:ZeroDamping'])
p('C77','Rounding errors of the reference weights are bounded','Every weight returned by weight_references is a finite number, exactly zero for a reference that does not exist, and differs from its exact value, the charge scaling times the normalised Gaussian weight of the given coordination number and charge, by at most ((1+u)^K - 1) times the charge scaling times the sum of the weight and a power of two that accounts for underflow. K depends only on bounds of the arguments of the exponential functions and on the accuracy of exp and pow. The Gaussians are computed in double precision: in a single precision model they contribute one rounding error, however many occur.','D4 and D4S, both sets of reference charges, all IEEE binary formats between single and double precision, all molecules and batches, all coordination numbers up to 32, all weighting factors, charge scaling parameters and charges within stated bounds, shifted charges that are not positive or at least 1/4','A test compares two precisions on a few molecules with a tolerance; this bounds the error for all coordination numbers and charges, also where the Gaussians underflow in the working precision.',['src/tad_dftd4/model/d4.py:D4Model.weight_references','src/tad_dftd4/model/d4s.py:D4SModel.weight_references','src/tad_dftd4/model/base.py:BaseModel._zeta'])
p('C78','Rounding errors of the C6 coefficients are bounded','For given coordination numbers and charges, every C6 coefficient returned by get_atomic_c6 is a finite number and differs from its exact value, the Casimir-Polder integral (by the quadrature of the package) of the exact reference polarizabilities with the exact reference weights, by at most ((1+u)^K - 1) times the same expression in which the polarizability of the secondary system is added instead of subtracted and a fixed power of two is added to every weight. K depends only on bounds of the arguments of the exponential functions and on the accuracy of exp and pow, not on the molecule.','D4 and D4S, both sets of reference charges, all IEEE binary formats between single and double precision, all molecules and batches, all elements, all coordination numbers and charges in the domain of C77, all charge scaling parameters within stated bounds','A test compares two precisions on a few molecules with a tolerance; this bounds the error of every coefficient, through the tabulated data, the scaled reference polarizabilities, the quadrature and the contraction, for all coordination numbers and charges.',['src/tad_dftd4/model/base.py:BaseModel._get_alpha','src/tad_dftd4/model/base.py:BaseModel._get_refc6','src/tad_dftd4/model/d4.py:D4Model.get_atomic_c6','src/tad_dftd4/model/d4s.py:D4SModel.get_atomic_c6','src/tad_dftd4/utils.py:trapzd'])
p('C79','Rounding errors of the two-body term are bounded from the reference weights to the energy','For given coordination numbers and charges, the atomic energies returned by the two-body term with rational damping are finite numbers, and differ from the energies of the exact formula with the exact C6 coefficients of the exact reference weights by at most ((1+u)^K (1 + Jc ((1+u)^M - 1)) - 1) times their absolute values. K depends on the accuracy of the distances and of pow and grows by one per atom; M depends on bounds of the arguments of the exponential functions; Jc bounds how far the secondary systems cancel the exact C6 coefficients. Padding may hold anything.','D4 and D4S, charge-dependent or not, all IEEE binary formats between single and double precision, all molecules and batches with padding, coordination numbers and charges in the domain of C77, distances, parameters and exact C6 coefficients within ranges of exponents','C67 and C78 bound one stage each for the floats it is given; whether the stages together give an accurate energy, without underflow or cancellation between them, is a statement on all molecules, which a comparison of two precisions on some molecules cannot give.',['src/tad_dftd4/dispersion/twobody.py:TwoBodyTerm.calculate','src/tad_dftd4/dispersion/twobody.py:dispersion2','src/tad_dftd4/model/d4.py:D4Model.weight_references','src/tad_dftd4/model/d4.py:D4Model.get_atomic_c6','src/tad_dftd4/model/d4s.py:D4SModel.get_atomic_c6'])
p('C80','Rounding errors of the three-body term are bounded from the reference weights to the energy','For given coordination numbers and charges, the atomic energies returned by the approximate three-body term of D4 with zero damping are finite numbers, and differ from the energies of the exact formula, with C9 coefficients formed from the exact C6 coefficients of the exact reference weights and with the exact radii, by at most ((1+u)^K R - 1) times the sum of the sizes of the triples. R = (1+u)^(s+1) (1 + 2d)^2 (1+u)^(3(s+3)A) holds the errors of the C9 coefficients and radii, d the relative error of the C6 coefficients, s the errors of the square root, A a bound of a third of the exponent of the damping function. Padding may hold anything, and a term that does not depend on charges returns the same with charges that are NaN.','D4 and D4S, charge-dependent or not, all IEEE binary formats between single and double precision, all molecules and batches with padding, coordination numbers and charges in the domain of C77, distances, parameters, radii and exact C6 coefficients within ranges of exponents','C76 takes the C9 coefficients and radii as given floats; that those the term computes are accurate, and of sizes for which the sum over the triples neither underflows nor overflows, is a statement on all molecules. The three-body energy changes sign with the shape of the triple, so a relative error observed on some molecules says nothing about others.',['src/tad_dftd4/dispersion/threebody.py:ATM.calculate','src/tad_dftd4/dispersion/threebody.py:get_atm_dispersion','src/tad_dftd4/dispersion/d4.py:D4ATMApprox','src/tad_dftd4/model/d4.py:D4Model.weight_references','src/tad_dftd4/model/d4.py:D4Model.get_atomic_c6'])
p('C81','Rounding errors of the sum over the terms are bounded','If each of the k terms of an object returns, for a given molecule, finite atomic energies that differ from exact energies by at most the fraction D of given sizes (not smaller than the absolute values of the exact energies), then the atomic energies returned by the calculation are finite numbers and differ from the sums of the exact energies by at most ((1+u)^k (1+D) - 1) times the sums of the sizes. With C79 and C80 this bounds the rounding errors of the energies of DispD4, for given coordination numbers and charges.','all lists of terms, of the package or others, all molecules and batch shapes, all IEEE binary formats, all models, all ways to give charges, expectation values and radii; sums of sizes below half of the largest power of two','The error of every addition, for all inputs and any number of terms.',['src/tad_dftd4/dispersion/base.py:Disp.calculate','src/tad_dftd4/dispersion/d4.py:DispD4'])
p('C82','Rounding errors of the polarizabilities and of get_properties are bounded','For given coordination numbers and charges, the polarizabilities of the D4 model are finite numbers and differ from the exact ones (sum over the reference systems of exact weight times exact reference polarizability) by at most ((1+u)^k - 1) times the same sum with the secondary systems added instead of subtracted, where k counts the rounding errors. The combined function that returns coordination numbers, charges, C6 coefficients and polarizabilities succeeds, returns the first two as the external functions give them, and its C6 coefficients and polarizabilities have the errors of C78 and of this property.','all molecules and batch shapes (also padded), all positions and total charges, all coordination numbers and charges within stated ranges, all IEEE binary formats between single and double precision, all mathematical libraries of stated accuracy','The error of every operation, for all inputs.',['src/tad_dftd4/model/base.py:BaseModel.get_polarizabilities','src/tad_dftd4/disp.py:get_properties'])
open('/verif/properties.jsonl','w').write(''.join(json.dumps(x)+'\n' for x in P))
print(len(P))
