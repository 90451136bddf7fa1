# Formal model of heat_load_calc in Rocq (Coq 8.16.1)

## Layout

* `rocq/theories/Model/*.v` – the model: Gallina functions mirroring `/repo`, each with file and line numbers. No proofs.
* `rocq/theories/Spec/*.v` – small specifications, written without the helpers of the model, used by the theorem statements.
* `rocq/theories/Lemmas/*.v` – proofs. `rocq/theories/Examples/*.v` – concrete houses, steps and runs used as witnesses.
* `rocq/theories/Props/Cxx_*.v` – the property statements: theorems closed by `exact lemma.` (or a short proof),
  `Print Assumptions` beneath, and an `Example` showing that a concrete non-trivial case meets the hypotheses.
* `properties.jsonl` – English properties; `MANIFEST.json` – property -> theorem names (made by `tools/manifest.py` with the
  notes of `tools/notes.json`); `AXIOMS.md` – what `Print Assumptions` lists for every theorem (made by `tools/axioms.py`);
  `seeded/LOG.jsonl` – log of wrong programs tried against the theorems.

Suffix `_partial`: only part of the English property, the comment says what is missing.
Suffix `_refuted`: the unrestricted property is false of the code; the theorem exhibits a witness.

## Number and array conventions (part of the trusted base)

* Python/numpy floats are modelled by exact numbers: rounding errors, overflow and infinities are not modelled. Where nan
  matters (numpy division by zero, azimuth of a sun in the zenith, missing hours of a pandas column) a float is an `option R`.
* Division by zero, missing keys, `raise` and `LinAlgError` are values (`option`, or `res` of `Model/Py.v` with the exception),
  never totalised away silently: wherever Coq's `/` is total, the theorem carries the guard or the model returns an error.
* `round(x, 1)` in C31 is an arbitrary function to the nearest tenth; `Series.round` in C50 and `round_num` in C52 are exact.
* Linear algebra of the time step (load calculation, humidity, ground): mathcomp matrices over an arbitrary `realFieldType`.
  `np.linalg.inv A` is `if A \in unitmx then Some (invmx A) else None`, `np.dot` is `*m`, a column vector times a matrix (numpy
  broadcasting) is the explicit entrywise product. Decimal literals are `dec z k` = z * 10^-k. Infiltration needs square
  roots: `rcfType`.
  `Model/RealNumbers.v` makes Coq's reals an instance of both, which joins the two halves of the model (C61, C71).
* Everything else (initializer, weather, converters, external formulas, result recorder): Coq's real numbers `R` and lists.
* Input dictionaries are records whose fields are options (`BoundaryDict`, `HouseDict`) or JSON values (`JsonValue`).
* Calls into libraries are parameters with explicit hypotheses: `fsolve` (C14, C71), `scipy.optimize.newton` (C59, C61), `np.linalg.inv`
  in the least squares fit of the response factors (C30). Saturation pressures and infiltration inside a step are functions
  handed to the step model; `CoreStep`/`CoreCalc` plug in the modelled ones.

## Trusted base

1. Coq's kernel (and `coqchk`), the `coq_makefile` build.
2. Axioms: only those of the standard library that `Print Assumptions` lists, see `AXIOMS.md` for every single theorem:
   * nothing ("Closed under the global context") for the theorems over mathcomp fields, `Z` and finite case analyses
     (C01–C13, C15–C20, C49, C51, C53, C54 and some others);
   * `ClassicalDedekindReals.sig_forall_dec`, `ClassicalDedekindReals.sig_not_dec`,
     `FunctionalExtensionality.functional_extensionality_dep` for theorems over `R`;
   * `Epsilon.epsilon_statement` where the reals are used as a mathcomp field (`Model/RealNumbers.v`, C61, C71);
   * `Classical_Prop.classic` in addition where limits, trigonometric functions, integrals (Coquelicot) or powers are used
     (C25–C28, C30, C31, C46, C59 and others).
   No axiom of our own, no axiom of another library.
3. The reading of `/repo`: the code is not executed here. Line citations are given at each definition.

## Properties: what is modelled, how it is proved

| id | model | method |
|----|-------|--------|
| C01 | `CoreLoop`, `CoreCalc` (calc as a fold over the steps, numpy index wraparound explicit) | visited steps = interval, by induction; negative run-up refuted |
| C02 | `Tick` (run_tick line by line over matrices), `PreCalc` | matrix algebra: the result of the solve satisfies a componentwise balance written as sums; sign of the inter-room term refuted by a 2-room witness |
| C03 | `Tick` | matrix algebra |
| C04 | `Tick` | field arithmetic per room |
| C05 | `Tick` + `PreCalc` (AX, FIA, CRX, FLB...) | proved for boundaries whose rear boundary has equal coefficients; refuted in general |
| C06 | `NextCondition` | column-selection algebra |
| C07, C08 | `NextCondition` | proved for one conditioned room, refuted for two |
| C09 | humidity part of `Tick` | matrix algebra |
| C10 | `Tick`, `HeatExchanger` | order reasoning, M-matrices |
| C11 | `Tick`+`PreCalc` | weights sum to one => fixed point; refuted with inter-room air |
| C12,C13 | `PreCalc`, `ShapeFactor` | finite sums over arbitrary index sets |
| C14 | `ShapeFactor` over R | IVT + strict monotonicity; order of concatenation refuted for boundaries not sorted by room |
| C15, C16 | `Ground`, `CoreCalc` | linear recurrence, contraction by induction; hand-over on masks |
| C17, C18 | `OperationMode`, `OtTarget` | case analysis + induction over histories; field arithmetic, monotonicity |
| C19, C20 | `Tick` (occupants), `Infiltration` | order arithmetic, square roots |
| C21–C23 | `Schedule`, `Residents` | lists over R |
| C24 | `Weather` | list indexing lemmas |
| C25, C26 | `SolarPosition`, `Inclined` | trigonometric identities against vectors in space (`Spec/Sky`) |
| C27–C29 | `SolarShading`, `Transmission`, `OutsideEqvTemp` | real arithmetic, Bernstein certificates for the glass polynomial (`GlassPoly`, `GlassNear`), Riemann integral for the diffuse share |
| C30, C55 | `ResponseFactor` | geometric series, `exp` identities, normal equations; the transfer function against the heat equation (`Spec/Conduction`) |
| C31–C35 | `BoundarySimple`, `Initializer`, `ReadHouse` | induction over lists |
| C36 | `Grouping` | induction over the loop |
| C37 | `Lv3` | lists, field |
| C38, C39 | `Lv4` | real case analysis |
| C40 | `ModelHouse` | real algebra |
| C41, C58 | `PartSpec`, `ModelHouse` | induction over the water filling recursion |
| C42 | `CheckUa`, `EesHouse`, `FactorH`, `FactorNu`, `FactorF` | lists |
| C43 | `EesLayers` | field |
| C44, C45 | `EesDict`, `EesInit`, `JsonValue` | computation on dictionaries |
| C46, C47, C59 | `Psychro`, `Iso7730` | real analysis with rational bounds of `exp` (`ExpBoundL`) |
| C48 | `Rac` | real arithmetic |
| C49 | `HeatExchanger` | field |
| C60 | `LogCore` (columns of the logger) | core lemmas of C02, C04, C09, C54 along a run |
| C61 | `OtConv` (both methods), `OtTarget`, `Iso7730` | both clothing equations have the same unique root; field arithmetic |
| C62 | `Tick`, `CoreStep` | each equation of the step at equal states; discrete maximum principle for uniqueness and for the converse |
| C50 | `Log` (record) | list lemmas, no two columns share a name |
| C51 | `Tick`, `PreCalc`, `NextCondition`, `CoreCalc` | strict diagonal dominance => invertible, M-matrix positivity; induction over the steps |
| C52 | `RoundNum` | floor arithmetic |
| C53 | `Tick` | M-matrix comparison of two runs |
| C54 | `Tick` | sum of the balances of C02–C05 |
| C56, C57 | `Initializer` (make_house), `BoundarySimple` | filters over lists; acceptance of complete descriptions |
| C63 | `FactorF`, `CheckUa` | cases over faces and seasons; monotone quotients; induction over windows |
| C64 | `Tick`, `PreCalc`, `NextCondition`, `HeatExchanger`, `OtTarget`, `Ground`, `CoreLoop`, `Infiltration` | every matrix operation commutes with reordering; relational induction over the loops |
| C65 | `WeatherTable`, `Weather`, `SolarPosition` | C24 per column, C25 at the same row, rounding of numbers with three decimals is the identity |
| C66 | `Convert` over `EesDict`, `ModelHouse`, `Lv3`, `Lv4`, `EesInit` | C44 per part, C41 and C37 for the values, case analysis for the last step |
| C67 | `SurfaceR`, `EesLayers`, `PartSpec` | cases over kinds and spaces, C43 for the layers |
| C68 | `WindowEta`, `JsonValue` | cases over the table, real arithmetic |
| C69 | `Orientation`, `FactorH`, `Inclined` | cases over names and regions |
| C70 | `CValue`, `Infiltration` | order lemmas, C20 |
| C71 | `Initializer`, `ReadHouse`, `Assemble` (the columns that are read become the matrices of the core), `CoreCalc`, `Infiltration` | composition of C57, C34, C14, C20; list sums as matrix sums |
| C72 | `Tick`, `CoreCalc` | M-matrix of the vapour balance, invariant over the run; refuted for houses with air paths |
| C73 | `Tick`, `CoreCalc`, `ResponseFactor` | weighted sum of squares that shrinks in every step; refuted by two rooms that exchange air |
| C74 | `Tick`, `OtTarget`, `CoreCalc`, `Simulation` | existence: the linear system of rooms and surfaces is injective by the maximum principle, the limited heat of people is found by minimising over its branches; approach: C62 leaves the state as it is, C73 shrinks the distance |
| C75 | `Tick`, `OtTarget`, `CoreCalc`, `Simulation` | the differences of two states obey the moisture balances without sources; the room with the greatest difference bounds all others; a coil at work takes more from the more humid room; the heat side of the step is the same function of the targets; the vapour of people is 4/l_wtr-Lipschitz in the temperature, whose differences shrink by C73; a growing pair for the air paths |
| C76 | `NextCondition`, `Tick`, `OtTarget` | gains enter the right hand side of the room balance with coefficient 1 and are taken up by the convective load of the room; one room: the load plan (radiant up to its capacity, then convective) is monotone in the lack of temperature, which by C53 falls; twin house and air-path house as witnesses |
| C77 | `Glazing` | induction over the panes: the recursion of the program maps the light entering a stack to the light leaving it; existence, uniqueness and telescoping of the light balance |
| C78 | `GlassBalance` | chain of resistances with sources: telescoping of the flows gives the balance, existence and uniqueness; positivity and monotonicity of every resistance, induction over the panes; the table of emissivities by induction over its rows; each resistance by induction over the panes against `Spec/GlassResist` |

## Not modelled

File and JSON I/O, CSV writing, logging output, notebooks (except the glazing modules in `notebook/initializer/shgc_window`), xlsx material, the iterations of `fsolve` and `newton`,
floating-point rounding, the contents of `schedules.json` and of the weather data files (theorems quantify over all
contents), performance. Of `building_part_summarize.integrate` only grouping and areas (the rest ends with an AttributeError),
of `convert_lv4_to_h_hlc.py` the last conversion up to the undefined name it reads (line 722), not the `integrate_…` functions
it no longer calls.

## Findings (violations of properties by the code)

Each is a `_refuted` theorem or stated in a theorem of the property given.

Core
* C02: air flowing in from other rooms enters the heat balance with the opposite sign (sequence.py 128–129).
* C05: terms of the rear side of an inner wall use the coefficients of the front side (pre_calc_parameters.py 491–509).
* C07, C08: loads are corrected in a single pass; with two conditioned rooms capacities may be exceeded and the load of a room
  may have the wrong sign (house with two equal rooms, `Examples/Twin`).
* C51: with floor heating in two rooms, each floor on its own partition between them, opposite outputs of the floors may leave no
  trace in the operative temperatures; the step then stops on a singular matrix (next_condition.py 104, 186).
* C10: a cooled room that receives air from another cooled room may be humidified by its own coil; the decision is taken room by
  room (heat_exchanger.py 42–43).
* C11: with air paths between rooms an isothermal house does not stay isothermal.
* C72: with air paths between rooms equally humid air becomes more humid by itself: vapour arriving from other rooms is counted,
  vapour leaving with the displaced air is not (sequence.py 204, vapour_balance.adoc eq. 4). Two rooms that exchange more air
  than they take from outdoors become more humid without bound, by 10 % and more per step (`C72_grows_refuted`).
* C73: in the same house a 100 W appliance in one room drives the rooms apart by more than 40 000 K in a day, and two calculations
  with run-ups of different length move apart instead of together (same lines as C02).
* C75: where rooms get at least as much air from other rooms as from outdoors, the humidity at the start is never forgotten
  (`C75_air_paths`); in the same house it decides the result (`C75_air_paths_refuted`).
* C76: free heat in one room can raise the heating load of another room that asks for only a part of its heating
  (`C76_rooms_refuted`); with an air path it can lower the cooling load of the neighbour (`C76_air_paths_refuted`).
* C14: `get_h_r_js` concatenates room by room; boundaries not listed room by room get each other's coefficients.
* C17: at PMV = 0 in middle clothes the windows open and close in every step for ever.
* C01: a negative building part of the run-up and a negative number of steps per hour are accepted.
* C49: the air flow of a cooling coil may be zero or negative for small loads.
* C50: digest and detail are indexed in quarter hours whatever the interval; loads of the digest are sums of W (four times Wh);
  outdoor humidity is rounded to 0.01 kg/kg, dry air shows 0.
* C60: the total heat flow recorded for a surface (`qiall_s`) is per m², its parts are per surface; both are called W.
* C46: relative humidity of saturated air is logged as up to 100.0033 % (0.622 against 0.62198); `np.vectorize` refuses empty arrays.

Initializer
* C22: heat and vapour schedules of cooking are exchanged (schedule_loader.py 93–111).
* C27: windows without sunshade get the shading ratio 1: no direct sunlight (solar_shading.py 233).
* C28: the transmittance polynomial exceeds 1 near normal incidence.
* C31: `k_inside` is rounded to tenths, so the weights for coefficients 0.05 and 0.15 do not add up to 1.
* C32: negative upstream room numbers are accepted. C56: boundaries of unknown rooms are silently dropped.
* C34: radiant cooling and rooms without convective cooling cannot be read back (KeyError, pre_calc_parameters.py 280, 290–293).
* C35: view factors of rooms without floor add up to 0.55, of rooms with floors only to 0.45; rooms without floor area get nan
  shares, which spread to all rooms (0 * nan, pre_calc_parameters.py 450).
* C36: the tolerance of the grouping is not transitive; merging reads the missing field `n_root`.
* C55: factories of response factors change their own lists, a second call describes a thicker wall.
* The share of convection `beta` is always 0; a room without boundaries ends with an IndexError; unknown day types keep −1.

Glazing
* C78: with the method JIS_A2103 the heat transfer at the inside surface uses the emissivity of the outside of the outermost pane
  (glass_thermal_balance.py 782).

Converters
* C37: occupied rooms larger than the house give negative shares.
* C38: inner floors over the underfloor space vanish when the whole floor is envelope; houses of one room lose inner floors.
* C39: the upstream rooms 'main' and 'other' do not exist; `make_rooms` uses an unknown name; the key is not the one read.
* C40: walls and windows may get negative areas; small envelopes are replaced by larger ones.
* C41: dwellings in apartment buildings and region 8 are never converted (KeyError, exception).
* C41: in region 8 the standard U values of boundary walls (4.10) and boundary floors (3.52) lie above the values
  used as the uninsulated maximum (3.80 and 2.67; get_u_psi_eta_from_u_a_and_eta_a.py 61-93), `C41_standard_refuted`.
* C42: earth floor perimeters push the mean above every part; heat bridges are not counted.
* C43: steel walls with large corrections get negative layer resistances.
* C44: detailed sunshades do not survive a round trip (KeyError, TypeError).
* C67: outer surface resistances differ between the two tables, e.g. below a floor over the open air (0.15 against 0.04,
  ees_house.py 901–917, a_06_common_items.py 55–60); unknown adjacent spaces are accepted as indoors.
* C68: a double window with gains given as numbers may gain more than 1; unknown kinds of windows end with an unbound variable.
* C66: the last conversion reads an undefined name (convert_lv4_to_h_hlc.py 722) and never returns; a sunshade given by its
  lengths is accepted by the first conversion and refused by the next.
* C45: no dictionary written for the initializer is accepted by it.

External
* C48: rated heating capacity is negative below 0.13 m², rated cooling below the minimum under 2.385 m².
* C59: `get_p_a` uses the formula over water below 0 °C. `iso7730`, `rac`, `round_num` are used nowhere else.
