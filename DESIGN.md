# Design of the nempy model

The model is a set of Coq 8.16.1 files in `rocq/theories`. It describes nempy
(`/repo/src/nempy`) as total, computable Gallina functions. The properties in
`properties.jsonl` are proved about it; `MANIFEST.json` says which theorem
proves which property.

## Shape of the model

* **Numbers.** Floats are modelled as rationals (`Q`, compared with `==`, `<=`,
  `<`). Rounding is not modelled, except where the code itself calls `round`
  (FCAS offers) and where a number is read from text. Where the code lets a
  null, an infinity or a division by zero through, the model uses `option` or an
  explicit error, or the theorem names the guard; there is no silent default.
* **Two views of tables.** In the typed view a DataFrame is a list of records.
  In the frame view (`FrameModel.v`, `CallModel.v`) it is a list of named
  columns with a dtype and untyped cells; `call` validates frames as the code
  does, reads them as typed rows and hands them to the typed view. `RowFacts.v`
  proves that frames the validator accepts give rows the typed checks accept.
* **Table operations.** `merge`, `concat`, `melt`, `drop_duplicates`,
  `groupby().sum()`, `sort_values`, `save_index` are list functions in
  `PandasModel.v`. The row order of a `groupby` result is first occurrence
  order; no theorem depends on that order.
* **Names** are Coq strings. **Times** are integers with an explicit calendar.
* **Exceptions** are values (`err`). A method of `SpotMarket` is a function
  `arguments -> market -> market * option err`; the returned market is the state
  left behind, also when the call raises.
* **Histories.** An `op` is an API call with its arguments. `run` executes a
  list of them, going on after an exception (as a caller who catches it could).
  A theorem about a constraint set says: take any history in which the call was
  made and not overwritten afterwards (`in_force`); then every feasible point of
  the assembled problem satisfies the stated fact.
* **The solver** is an oracle. `assemble` builds the optimisation problem that
  `dispatch` hands to the solver. `SpecLp.v` says what feasible and optimal
  mean. Theorems hold for every feasible (or optimal) assignment. Dual values
  (prices) are inputs of the report functions; `SpecDual.v` says what makes them
  shadow prices, and the theorems about prices assume that the solver returned
  such values.
* **Files.** `*Model.v`: definitions only, each citing file and lines of the
  code. `Spec*.v`: small independent specifications. `*Facts.v`: lemmas.
  `Prop*.v`: the property theorems, each closed by `exact` (or a computation for
  refutations), with the example showing that its hypotheses can be met and
  `Print Assumptions`.
* **Names of theorems.** `Cnn_…` belongs to property Cnn. `…_partial`: the
  property as written does not hold in full; the missing part is named in the
  comment. `…_refuted`: a concrete case in which a wider claim is false of the
  code as modelled.

## Trusted base

* Coq's kernel (and its `vm_compute` in examples and refutations).
* `Print Assumptions` of every property theorem: see the end of this file. All
  are closed under the global context. No axiom is used or added. `coqchk -o`
  lists the axioms of the standard library's `ssrunder` and `Under_rel` modules
  when they are loaded; no theorem depends on them.
* The reading of the python code that the model makes. The behaviour of pandas,
  numpy, sqlite and python-mip is modelled from their documented semantics and
  is not verified.

## What is modelled

Paths are relative to `/repo/src/nempy`.

| code | model file |
|------|------------|
| `markets.py` constructor and all `set_*`, `link_*`, `remove_*`, `make_constraints_elastic` methods on typed tables | `MarketModel.v` |
| the same methods on the tables of the caller, with the columns they add in place | `CallModel.v` |
| `spot_market_backend/dataframe_validator.py` | `FrameModel.v` |
| `spot_market_backend/variable_ids.py`, `objective_function.py` | `VariableIdsModel.v` |
| `spot_market_backend/market_constraints.py` | `MarketConstraintsModel.v` |
| `spot_market_backend/unit_constraints.py` | `UnitConstraintsModel.v` |
| `spot_market_backend/ramp_rate_processing.py` | `RampModel.v` |
| `spot_market_backend/fcas_constraints.py` | `FcasModel.v` |
| `spot_market_backend/interconnectors.py` | `InterModel.v` |
| `spot_market_backend/elastic_constraints.py` | `ElasticModel.v` |
| `markets.py` `dispatch` up to the first optimisation, `solver_interface.py` (variables, constraints, SOS sets, objective) | `SolverModel.v` |
| `markets.py` `dispatch` after it: pricing run, over-constrained re-run | `PricingModel.v` |
| `markets.py` dispatch, flow and summary reports; FCAS prices and availability | `ReportsModel.v`, `FcasReportsModel.v` |
| `time_sequential.py` | `SequenceModel.v` |
| `markets.py` prices of market constraints, `solver_interface.py` `price_constraints` | `DispatchPricesModel.v` |
| `markets.py` `dispatch` as a whole (the solver is a parameter), `solver_interface.py` `find_problem_constraint` | `DispatchModel.v` |
| `historical_inputs/units.py` modes of fast start units | `ModesModel.v` |
| `spot_market_backend/unit_constraints.py` targets of fast start rows, with divisions by zero | `TargetsModel.v` |
| `spot_market_backend/fcas_constraints.py` slopes and `objective_function.py` costs, with divisions by zero | `DivisionModel.v` |
| `historical_inputs/units.py` scaling and filtering of FCAS offers | `UnitsModel.v`, `OffersModel.v` |
| `historical_inputs/units.py` getters of `UnitData`, directions, formatting | `UnitDataModel.v` |
| `historical_inputs/rhs_calculator.py` evaluation and updates | `RhsModel.v` |
| `historical_inputs/rhs_calculator.py` set-up from a case file | `RhsReadModel.v` |
| `historical_inputs/loaders.py` pass-through and `UnitData.__init__` | `CaseModel.v` |
| `ConstraintData.__init__` from the document, its getters | `CaseConstraintsModel.v` |
| `historical_inputs/constraints.py`, constraint tables of `xml_cache.py` | `ConstraintsModel.v` |
| `historical_inputs/interconnectors.py` | `LossModel.v` |
| `historical_inputs/mms_db.py` queries and filling | `DbModel.v` |
| `historical_inputs/xml_cache.py` getters, what `xmltodict` makes of a document | `XmlModel.v` |
| `historical_inputs/xml_cache.py` naming, loading, filling of the cache | `CacheModel.v` |

## What is not modelled

* Network access, files on disk beyond their presence, the text of XML files (an
  element tree is the input; its conversion by `xmltodict` is modelled, without
  element text and namespaces), the reading of numbers from text (a parameter of
  the theorems), sqlite and pandas internals.
* The solver's algorithm, and how it computes dual values.
* Float rounding, printing and plotting, `check.py` (decorators nempy no longer
  uses).
* In the typed view NaN and infinities in columns that need not be real numbers
  (unit limits, ramp rates of regulation units); the frame view validates them
  but `call` gives no result for them.
* Aliasing: the market keeps the caller's frame for interconnector definitions
  and for generic constraint coefficients; a caller who changes it later is not
  modelled.

## Findings

The refutations and partial theorems record behaviour of the code that differs
from what its documentation or the property says. The notes of the manifest:

* C02: Holds for histories without an empty generic constraint table; refuted with one (the next id becomes NaN).
* C03: Proved for every call, market and table except a rejected table of violation costs: that one is validated after the group is saved, and the call has then done what it does without violation costs (proved), which changes the linear program (C03_refuted).
* C08: For run type no_fast_start_units; fast start runs are C29. The second theorem shows that the condition on the columns is needed.
* C12: a bidirectional unit bidding the regulation on one side only escapes the limit: C12_one_sided_bids_refuted
* C13: proved for ordinary units; false of the code for bidirectional units: the load side lower regulation has the wrong sign (fcas_constraints.py line 301) and load side trapeziums double count load energy
* C17: Exact effect of a loss on every regional balance; a link from a region to itself is outside the quantifier and fails, shown separately.
* C18: The functions of every link, their slope, the chord error and the losses of every dispatch solved with the tables. Links whose factor is not 1 or -1 are outside the claim and get the losses of other flows (refuted).
* C24: Proved for bands with a price bid and a registered dispatch type; the two refutations show that both conditions are needed.
* C25: Proved for any reached market when the second call alone sets the groups and violation variables the first one sets (for one-group methods: first call inelastic or second call with a numerical cost), and for prices and links without condition. False in general: an elastic call followed by an inelastic one, a second ramp table without bidirectional units, a second fast start table with nothing to constrain, volume bids set again after prices, interconnectors set again after losses; each shown by a concrete market.
* C28: The modes follow a small process in time; over-runs of the current mode are shown to give a time since mode 2 longer than the interval.
* C30: Amount and direction for inequalities, nothing else moves, the original dispatch without violations meets the re-run when no equality is violated. The claim is false for violated equalities (overshoot 0.01) and for groups whose violations are all at most 0.0001.
* C31: Proved where no gap between neighbouring break points is longer than the next two gaps on a side together; false without that, with a witness.
* C33: Every constraint is for a tied pair and every pair of tied bids has one, up to the text the code uses to tell pairs apart; that text is the sorted unit and band names run together, so two pairs of crosswise priced bands share one constraint (refuted).
* C36: The full statement is false of the code: a sending end with a loss factor other than one unbalances its row (C36_imbalance gives the exact amount), and a region without interconnectors or losses is left out.
* C37: The price part is proved in full. The availability part is false of the code for bidirectional units: their joint ramping constraints are not looked at.
* C38: For every five minute time of the calendar from year 2 on and every set of files. C38_absent_refuted: an interval outside the cache is said to be a re-run, which the statement leaves open.
* C39: Holds after every history that ends in a successful load, provided the files in the folder hold the data of the interval in their name. After a failed load the manager is at the new interval with the data of the old one (C39_failure_refuted). The search for violations is not affected (C39_search).
* C40: SQLite is modelled as joins, filters and maxima over lists. Outside the statement: versions stored as text are not ordered as numbers (C40_text_version_refuted), and rows whose END_DATE has passed are returned against the documentation (C40_ended_refuted).
* C41: C41_order_refuted: with a start more than two months after the end of the same year the rest of the year is requested.
* C42: Each scaling and the three together, with slopes kept in cross-multiplied form; ramp rates must not be negative. The refuted theorems show what the code does at the edges: non-positive AGC limits do not count, a unit without a row of AGC limits loses its regulation offers, and offers without a regulation offer to scale raise an exception.
* C44: Expressions with the operators of the stack and defaults of inputs, moves on the stack, sums, groups with a factor, the choice by POP and EXLEZ, independence of earlier evaluations. A group that ends an equation without a factor term raises IndexError (refuted case).
* C45: Constraints that do not lead to the input are unchanged. The list is complete only if generic equations do not refer to each other; with nested generic equations it misses constraints (refuted case).
* C46: For case files whose constraint ids are not repeated. The factors of regional terms are dropped from the requirements (refuted case), and a repeated id is treated as regional throughout (refuted case).
* C47: True where every unit has at most one row of energy dispatch and no rate is missing; bidirectional units and missing rates break it, with witnesses.
* C48: True of all tables but unit limits, the forecast, and bids and ramp rates in a market that does not ask for dispatch types; those are always rejected the second time (C48_refused_again). Unit information passed again flips the demand for dispatch types.
* C49: Proved for months. A range of days misses the intervals after 04:00 of the last day (C49_days_partial says exactly which are covered, C49_days_refuted gives one that is not). An archive is asked for unless the file of midnight is already in the folder.
* C50: Missing: a file with exactly the columns of the table is passed over (C50_exact_columns_refuted), so C50_history is stated for files that have a further column.
* C52: Every trade is one row with its unit, market, direction and numbers. Missing: where a trade does not have an attribute its column is not empty but holds the number of the column before it (xml_cache.py 433-444 appends the last value), proved exactly in C52_carried_over and shown against the claim in C52_refuted; the output in the docstring shows it.
* C53: Every trade is one row with its unit, market, direction and prices. Missing: where a trade has neither a band nor a direction the word GEN or LOAD is written in the column of the price (xml_cache.py 529-533 do not ask which attribute is missing), proved exactly in C53_gaps and shown in C53_refuted.
* C57: Every price under a name that is looked for is one row. Missing: the name looked for of the lower five minute price is RL5Price (xml_cache.py 1163), and in a period with an intervention both runs are read, so that a region has two prices.
* C60: Everything but the last clause holds. Trapeziums are not filtered by the unit info as the bids are: a unit without details has a trapezium and no bid, and the market rejects the whole table. Units with details always have the bid (C60_bids).
* C62: Rows characterised for all tables. A volume bid without a direction of a unit with price bids in both directions is given twice (refuted). One energy volume bid without a price bid makes the availability and the processed bids fail for all units (C62_missing_price).
* C63: The calculator of right hand sides takes its inputs and equations from the case file as they are there, and values marked bad count like good ones. Outside the quantifier: a case file with a single entered value raises TypeError, and a SCADA type with only bad values raises KeyError; both are proved as refutations.
* C71: False as stated: for demand in a region without units and links, or a requirement nobody offers, no constraint is added to the model; dispatch solves the problem and then raises AttributeError when it reads the price. Proved: exactly when prices are found, that supplied demand, offered requirements and elastic groups are always priced.
* C73: Proved: the constraints named are the shortest run from the first constraint on whose removal helps. Refuted: that each is in the way; constraints are never put back, so harmless earlier ones are named too.
* C74: Proved for markets without losses and special ordered sets, and with losses whenever the linear solution costs what the dispatch costs (it never costs more). Refuted with losses and negative prices.
* C81: False of the code for five tables: the lengths and times of set_fast_start_constraints (markets.py:991-999) and the time since mode two (markets.py:792) are documented as integers but must be floats; loss_segment (markets.py:2178) is documented as float but must be an integer; the SCADA rates of set_joint_ramping_constraints_reg (markets.py:1441-1446) are documented as optional but must be there; loss_factor of unit_info (markets.py:66) is documented as np.int64 but must be float. With the documentation put right it holds of every call; accepted tables have the documented columns but for link, generic_constraint_factor and SCADA rates in the bid ramp rate table, which are taken and not documented.
* C83: Feasible dispatch, costs and optima of any two histories that make the same calls in other row and call orders coincide, with and without interconnector losses. C83_disagreeing_rows_refuted shows why the rows of a requirement set have to agree.
* C86: Holds for tables without initial outputs. get_bid_ramp_rates already returns the column initial_output, so that the merge yields initial_output_x and initial_output_y and every market refuses the table; the example time_sequential.py does exactly this.
* C89: Proved: acceptance is exactly 'number, or table without equal rows for fcas/generic'; a refusal changes nothing. Missing because false of the code: one row per set (the validator compares set and cost together, so two costs for one set pass and the cheaper one decides), MissingColumnError and ValueError (both KeyError: the ValueError is created but not raised, markets.py:2733).
* C91: The condition on dropped bands is needed: the last theorem shows a unit that is free of its ramp limits as long as it offers no volume, and a market without any dispatch once it offers some. Trapeziums, fast start profiles and the ramp rates of bidirectional units with two rows are kept the same on both sides.
* C92: Code bug: the schema of price bids names the columns that have to rise (markets.py:408) and the documentation promises BidsNotMonotonicIncreasing (markets.py:394-395), but DataFrameSchema.validate never calls _check_row_monatonic_increasing (dataframe_validator.py:18-32, 39-46). Proved: whether a table is accepted does not depend on its prices at all, every market that takes prices for two bands takes falling ones, and with prices that do rise the bands are used in order. The method that is never called is not modelled; as written it selects all ten band columns, so calling it would raise KeyError for tables with fewer bands, and it uses Series.is_monotonic, which pandas 2 no longer has.
* C93: Code and documentation disagree. Documented as errors but taken: negative or null capacities and forecasts, negative ramp rates and initial outputs, negative demands, negative reserve requirements, negative or null rates in the joint ramping table, negative break points of trapeziums, and loss shares above 1.0. Negative demands, break points and initial outputs do make sense for some regions and units, so there the docstring is what is wrong. set_interconnector_losses builds its ModelBuildError but lacks the raise (markets.py:2204-2205): proved that it never ends with that error on a market without interconnectors, it ends with an AttributeError instead. Every other documented rule is proved to be checked.
* C94: Code and documentation disagree. The docstrings of dispatch, get_unit_dispatch and get_energy_prices list a ModelBuildError for energy bids without energy demand (markets.py:2932-2933, 3243-3244, 3318-3319), but dispatch only checks that there is some decision variable (markets.py:3007-3012). Proved: a new market is refused with that error; once volume bids are set the problem is never refused with it, whatever else is missing; without a demand call get_energy_prices ends with a KeyError. Example of a market without demand where dispatch records 80 MW at a negative price for nobody.
* C96: Every row made for dispatch has a target from zero to the minimum loading, except rows that end in mode 4 when mode 4 has no length: there the time is cut to zero and zero is divided by zero, so the right hand side is NaN. C96_missing shows these are exactly the bad rows, C96_refuted gives sound data that lead to one, in a table that set_fast_start_constraints accepts. C96_limits shows that elsewhere the right hand sides of the model are the targets.
* C97: Trapeziums made from a case file always have slopes that are numbers, and tables without zero in max_availability make only such coefficients. The checks accept zero max_availability and zero loss factors, both of which are divided by: the slopes and costs are then NaN or infinite (C97_slopes_refuted, C97_costs_refuted). The missing cases are characterised exactly. Elsewhere the coefficients and costs of the model are the quotients.
* C98: Proved for a first term without the id of the group. False if the first term carries the id: the value of the group is stored in the term, but the term is then skipped because it has a group (rhs_calculator.py:546-590), so a group alone gives 0 whatever its members are, and in a longer sum the group is left out. The comment in the code describes this form as supported.
* C99: Proved when another term follows: the code continues with the next term (rhs_calculator.py:555-558). False at the end of an equation: the code reads equation[i+1] before it tests anything, so the evaluation always ends with an IndexError.

## How theorems were tested

`seeded/LOG.jsonl` has one line per wrong program: the definition edited in a
scratch copy, the edit, the claim it breaks, the theorems that failed.

## Properties and assumptions of their theorems

Every theorem below: `Closed under the global context` (no assumptions).

| property | status | theorems |
|---|---|---|
| C01 Decision variable ids never collide | proved | `C01_variable_ids_never_collide` |
| C02 Constraint ids never collide | partial | `C02_constraint_ids_never_collide_partial`, `C02_refuted` |
| C03 A rejected table leaves the market unchanged | partial | `C03_rejected_table_changes_nothing_partial`, `C03_rejected_costs_leave_hard_constraints`, `C03_refuted` |
| C04 Input validation accepts exactly the well-formed tables | proved | `C04_accepts_exactly_well_formed`, `C04_error_of_the_fault`, `C04_every_table_described_properly`, `C04_call_rejects_exactly_faulty_tables`, `C04_constructor` |
| C05 Dispatch stays inside the offered volumes | proved | `C05_dispatch_within_bids`, `C05_dispatch_not_negative` |
| C06 Regional energy balance | proved | `C06_energy_balance`, `C06_unsupplied_region_dropped` |
| C07 Capacity and forecast limits bind energy dispatch | proved | `C07_capacity_limits`, `C07_forecast_limits`, `C07_unlisted_side_is_not_limited` |
| C08 Ramp limits of ordinary units | proved | `C08_ramp_limits`, `C08_own_scada_columns_refuted` |
| C09 Composite ramp rate of bidirectional units | proved | `C09_composite_up_rate`, `C09_composite_down_rate`, `C09_limit_unique`, `C09_mirror`, `C09_limit_monotone`, `C09_limit_continuous`, `C09_bidirectional_ramp_limits` |
| C10 FCAS requirement sets are met | proved | `C10_requirement_met`, `C10_requirement_met_unlinked`, `C10_unoffered_requirement_dropped` |
| C11 FCAS max availability is respected | proved | `C11_max_availability` |
| C12 Joint ramping of energy and regulation | proved | `C12_joint_ramping`, `C12_one_sided_bids_refuted` |
| C13 Joint capacity constraints confine a unit to its contingency FCAS trapezium | partial | `C13_joint_capacity`, `C13_inside_trapezium`, `C13_bidirectional_partial`, `C13_bidirectional_lower_refuted`, `C13_bidirectional_load_refuted` |
| C14 Energy and regulation capacity constraints confine a unit to its regulation trapezium | proved | `C14_energy_and_regulation`, `C14_inside_trapezium`, `C14_nothing_else_excluded` |
| C15 Interconnector flow limits and regional effect | proved | `C15_flow_limits`, `C15_regional_effect` |
| C16 Interconnector losses interpolate the loss function | proved | `C16_loss_interpolation` |
| C17 Losses are shared out completely | proved | `C17_loss_shares`, `C17_losses_complete`, `C17_self_link_refuted` |
| C18 Historical loss functions | proved | `C18_loss_functions`, `C18_vanishes_at_zero`, `C18_marginal_loss`, `C18_interpolation_error`, `C18_break_points`, `C18_dispatch_losses`, `C18_other_factors_refuted`, `C18_fraction_refuted` |
| C19 Elastic constraints are always satisfiable and free when not violated | proved | `C19_always_satisfiable`, `C19_zero_violation_is_original`, `C19_dropped_constraint_revived` |
| C20 At the optimum violations are minimal and reported correctly | proved | `C20_violation_exact`, `C20_violation_degree` |
| C21 A unit's bands are dispatched in price order | proved | `C21_price_order` |
| C22 Merit order across units | proved | `C22_merit_order`, `C22_merit_order_services` |
| C23 Bid costs enter the objective with the right sign and scaling | proved | `C23_objective`, `C23_unscale_round_trip` |
| C24 Every dispatchable band is priced and located | proved | `C24_priced_and_located`, `C24_unpriced_band_refuted`, `C24_unregistered_band_refuted` |
| C25 Setting a constraint set again replaces it | partial | `C25_second_call_replaces_partial`, `C25_one_group_replaced_partial`, `C25_tables_overwritten_partial`, `C25_elastic_first_refuted`, `C25_stale_ramp_rates_refuted`, `C25_stale_fast_start_refuted`, `C25_other_methods_refuted` |
| C26 Removing fast start constraints undoes setting them | proved | `C26_removal_undoes`, `C26_removal_restores`, `C26_removal_of_nothing`, `C26_removal_clears` |
| C27 Fast start profile limits | proved | `C27_profile_limits`, `C27_targets_in_range`, `C27_profile_continuous` |
| C28 Fast start mode progression | proved | `C28_process`, `C28_one_outcome`, `C28_rows`, `C28_modes`, `C28_mode_two_target`, `C28_overrun_refuted` |
| C29 Ramp limits of fast start units | proved | `C29_first_run`, `C29_second_run` |
| C30 Over-constrained re-run relaxes violated constraints enough | partial | `C30_amount`, `C30_others_stay`, `C30_original_meets_partial`, `C30_equality_refuted`, `C30_small_violations_refuted` |
| C31 The pricing run contains the dispatch solution | partial | `C31_dispatch_remains_partial`, `C31_uneven_points_refuted` |
| C32 Two-link market interconnectors carry flow one way only | proved | `C32_one_way`, `C15_flow_limits`, `C16_loss_interpolation`, `C32_generic_factor`, `C32_flows_reported`, `C32_same_name_both_ways` |
| C33 Tie-break constraints balance equally priced bids pro rata | partial | `C33_tied_pairs`, `C33_one_each_partial`, `C33_every_pair_refuted` |
| C34 Generic constraints mean what was linked | proved | `C34_generic_constraints`, `C34_region_link_adds_loads` |
| C35 Dispatch reports conserve the solution | proved | `C35_unit_dispatch`, `C35_totals`, `C35_net_dispatch` |
| C36 The regional dispatch summary balances | partial | `C36_summary_balances_partial`, `C36_imbalance`, `C36_regions_partial`, `C36_balance_refuted`, `C36_regions_refuted` |
| C37 FCAS prices and availability reports | partial | `C37_prices`, `C37_availability_partial`, `C37_availability_refuted` |
| C38 Interval numbering and file names | proved | `C38_days`, `C38_number`, `C38_unique`, `C38_ends`, `C38_next`, `C38_names`, `C38_file`, `C38_rerun`, `C38_absent_refuted` |
| C39 Data read belongs to the interval that was set | partial | `C39_success_partial`, `C39_failure`, `C39_missing`, `C39_failure_refuted`, `C39_search`, `C39_search_own` |
| C40 Database queries return the records in force | proved | `C40_stamp`, `C40_effective`, `C40_entries`, `C40_used`, `C40_started`, `C40_day`, `C40_time`, `C40_matched`, `C40_text_version_refuted`, `C40_ended_refuted` |
| C41 Database population covers the requested months | proved | `C41_months`, `C41_late_start`, `C41_order_refuted` |
| C42 FCAS trapezium scaling keeps slopes and only tightens | proved | `C42_agc`, `C42_agc_kept`, `C42_ramp`, `C42_ramp_kept`, `C42_uigf`, `C42_uigf_kept`, `C42_all_steps`, `C42_negative_limits_refuted`, `C42_no_limits_refuted`, `C42_no_regulation_refuted` |
| C43 FCAS enabling preconditions | proved | `C43_volumes`, `C43_prices`, `C43_process`, `C43_energy`, `C43_forecast`, `C43_rounding` |
| C44 Right-hand-side equations are evaluated as reverse polish notation | proved | `C44_expression`, `C44_moves`, `C44_linear`, `C44_groups`, `C44_choice`, `C44_choice_by_input`, `C44_groups_end`, `C44_repeat`, `C44_list`, `C44_last_group_refuted` |
| C45 Updating an input only affects the reported dependants | partial | `C45_unrelated`, `C45_unlisted_partial`, `C45_listed`, `C45_nested_refuted` |
| C46 Generic and FCAS constraint sets partition the invoked constraints | proved | `C46_loads`, `C46_partition`, `C46_generic`, `C46_generic_once`, `C46_fcas`, `C46_factor_refuted`, `C46_repeated_refuted` |
| C47 Time sequential ramping inputs | partial | `C47_rows_partial`, `C47_market_partial`, `C47_seed`, `C47_bidirectional_refuted`, `C47_missing_rate_refuted` |
| C48 Tables passed in can be passed in again | partial | `C48_passed_again_partial`, `C48_refused_again`, `C48_refuted`, `C48_unit_information_again`, `C48_unit_information_refuted` |
| C49 Filling the XML cache covers the range asked for | partial | `C49_months`, `C49_days_partial`, `C49_days_refuted` |
| C50 A filled database table holds the right records | partial | `C50_months`, `C50_complete`, `C50_history`, `C50_history_none`, `C50_exact_columns_refuted` |
| C51 Historical interconnector definitions | proved | `C51_definitions`, `C51_regulated_present`, `C51_market_links_present` |
| C52 Volume bids in a case file | partial | `C52_rows_partial`, `C52_carried_over`, `C52_refuted` |
| C53 Price bids in a case file | partial | `C53_rows_partial`, `C53_gaps`, `C53_refuted` |
| C54 State of the units in a case file | proved | `C54_initial`, `C54_intervention`, `C54_fast_start`, `C54_forecasts`, `C54_mixed` |
| C55 Constraints and market link offers in a case file | proved | `C55_constraints`, `C55_links` |
| C56 Violations and violation prices in a case file | proved | `C56_violations`, `C56_prices` |
| C57 Service prices in a case file | partial | `C57_rows_partial`, `C57_refuted_name`, `C57_refuted_twice` |
| C58 Regions and loss factors of units | proved | `C58_rows`, `C58_once`, `C58_always` |
| C59 Processed bids carry the bids of the case file | proved | `C59_volumes`, `C59_prices`, `C59_energy`, `C59_fcas`, `C59_keys`, `C59_cost`, `C59_dispatch` |
| C60 FCAS trapeziums of the case file | partial | `C60_order`, `C60_rows`, `C60_limits`, `C60_bids`, `C60_bids_refuted` |
| C61 Bid availability and ramp rates of units | proved | `C61_availability`, `C61_bid_rates`, `C61_scada` |
| C62 Directions of volume bids | partial | `C62_rows`, `C62_paired`, `C62_missing_price`, `C62_one_each_refuted` |
| C63 Right hand side calculator set up from the case file | proved | `C63_set_up`, `C63_values`, `C63_equations`, `C63_sum`, `C63_stated`, `C63_no_generic`, `C63_single_refuted`, `C63_all_bad_refuted` |
| C64 A market built from a case file trades its bids | proved | `C64_load`, `C64_belong`, `C64_energy_cost`, `C64_fcas_cost`, `C64_bands`, `C64_capacity`, `C64_forecast`, `C64_ramp` |
| C65 The constraints of a case file hold in the market | proved | `C65_load`, `C65_generic`, `C65_regional` |
| C66 Elastic limits hold when nothing is violated | proved | `C66_capacity`, `C66_violation_needed`, `C66_forecast`, `C66_ramp`, `C66_bidirectional_ramp`, `C66_max_availability`, `C66_joint_ramping`, `C66_joint_capacity`, `C66_inside_trapezium`, `C66_energy_and_regulation`, `C66_inside_regulation_trapezium`, `C66_fast_start`, `C66_fast_start_first_run`, `C66_fast_start_second_run`, `C66_energy_balance`, `C66_requirement`, `C66_generic`, `C66_case_generic`, `C66_case_regional` |
| C67 Reported prices are marginal costs | proved | `C67_energy_price_is_marginal`, `C67_energy_prices_together`, `C67_fcas_price_is_marginal`, `C67_prices_of_the_dispatch_problem`, `C67_prices_of_the_dispatch_constraints` |
| C68 Dispatch agrees with reported prices | proved | `C68_energy_bids_follow_price`, `C68_fcas_bids_follow_price` |
| C69 No arbitrage between regions | proved | `C69_no_arbitrage`, `C69_link_no_arbitrage`, `C69_free_link_equal_prices` |
| C70 Violation costs cap the prices | proved | `C70_violation_cost_caps_price`, `C70_energy_price_capped` |
| C71 Dispatch finds a price for every market constraint | partial | `C71_prices_exact_partial`, `C71_supplied_demand_partial`, `C71_offered_reserve_partial`, `C71_elastic_groups_priced_partial`, `C71_unsupplied_region_refuted`, `C71_unoffered_reserve_refuted` |
| C72 Dispatch records an optimal solution and the prices of its problem | proved | `C72_dispatch_records_optimum`, `C72_rerun_prices_when_due`, `C72_exceptions` |
| C73 The constraints named after a failed dispatch are in the way | partial | `C73_named_constraints_partial`, `C73_harmless_constraint_named_refuted` |
| C74 Recorded prices are prices of the recorded dispatch | partial | `C74_lossless_prices_partial`, `C74_lossless_bids_follow_price_partial`, `C74_same_cost_prices_partial`, `C74_losses_detach_prices_refuted` |
| C75 At the reported prices no units would rather run differently | proved | `C75_no_gain`, `C75_no_gain_energy`, `C75_no_loss`, `C75_recorded_dispatch` |
| C76 Prices do not fall when demand rises, and bound what the rise costs | proved | `C76_cost_between_prices`, `C76_price_does_not_fall`, `C76_recorded` |
| C77 A call that sets constraints changes these constraints and nothing else | proved | `C77_variables_and_costs_kept`, `C77_other_constraints_kept`, `C77_new_limits_never_cheaper`, `C77_met_limits_keep_optimum`, `C77_recorded_never_cheaper` |
| C78 The order in which different constraints are set does not matter | proved | `C78_order_does_not_matter`, `C78_two_calls` |
| C79 The optimisation problem admits exactly the dispatch that obeys every call | proved | `C79_exactly_the_rules`, `C79_infeasible_only_if_contradictory` |
| C80 A call does what its tables say, cell by cell | proved | `C80_call_does_what_the_tables_say`, `C80_accepted_call_does_what_the_tables_say`, `C80_every_call_answered`, `C80_history`, `C80_constructor`, `C80_constructor_answers` |
| C81 The columns and types asked of a table are the documented ones | partial | `C81_documented_tables_partial`, `C81_corrected_documentation`, `C81_corrected_unit_information`, `C81_accepted_as_documented`, `C81_accepted_unit_information`, `C81_fast_start_refuted`, `C81_loss_segment_refuted`, `C81_optional_rates_refuted`, `C81_time_since_mode_two_refuted`, `C81_unit_information_refuted` |
| C82 Dispatch answers to price bids in the right direction | proved | `C82_cost_change`, `C82_law_of_supply`, `C82_dearer_bids`, `C82_recorded` |
| C83 The order of rows and of calls does not change the dispatch | proved | `C83_same_dispatch`, `C83_same_optimum`, `C83_disagreeing_rows_refuted` |
| C84 With violation costs dispatch weighs the bids against what the rules are missed by | proved | `C84_hard_rules_suffice`, `C84_no_cheaper`, `C84_optimum_weighs`, `C84_minimum_is_optimum`, `C84_negative_cost_unbounded` |
| C85 Ramping over consecutive intervals | proved | `C85_consecutive_intervals`, `C85_whole_sequence` |
| C86 Historical ramp rates fit the time sequential functions | partial | `C86_names_partial`, `C86_bid_ramp_rates_refuted`, `C86_initial_output_twice_refuted` |
| C87 Hard rules hold exactly beside constraints with violation costs | proved | `C87_exactly_the_hard_rules`, `C87_infeasible_only_if_hard_rules_clash`, `C87_optimum`, `C87_cheapest_is_optimum` |
| C88 Dispatch with interconnector losses obeys exactly the rules of the calls | proved | `C88_exactly_the_rules`, `C88_infeasible_only_if_rules_clash`, `C88_optimum`, `C88_cheapest_is_optimum` |
| C89 make_constraints_elastic accepts exactly the documented costs | partial | `C89_accepted_exactly`, `C89_refused_changes_nothing`, `C89_unknown_constraints`, `C89_two_costs_refuted`, `C89_answers_refuted` |
| C90 The cost that dispatch records is settled by the calls, not by the solver or by the order of rows and calls | proved | `C90_any_solver`, `C90_any_order`, `C90_found_in_any_order` |
| C91 Less strict limits never make dispatch dearer | proved | `C91_dispatch_stays_possible`, `C91_optimum_not_dearer`, `C91_recorded_not_dearer`, `C91_volume_from_nothing_refuted` |
| C92 Price bids that do not rise with the band are refused | partial | `C92_rising_bands_in_order_partial`, `C92_prices_never_refused`, `C92_falling_accepted_everywhere`, `C92_refuted` |
| C93 Values that are documented to be refused are refused | partial | `C93_bad_values_refused_partial`, `C93_unit_information`, `C93_refuted`, `C93_null_refuted`, `C93_losses_first_refuted` |
| C94 Dispatch refuses a market that is not complete | partial | `C94_nothing_set_partial`, `C94_bids_suffice`, `C94_prices_key_error`, `C94_refuted` |
| C95 The price of an FCAS requirement set does not fall when its requirement rises, and bounds what the rise costs | proved | `C95_cost_between_prices`, `C95_price_does_not_fall`, `C95_recorded` |
| C96 Fast start profiles made for dispatch have targets that are numbers | partial | `C96_defined_partial`, `C96_missing`, `C96_limits`, `C96_refuted` |
| C97 Slopes of trapeziums and costs at the reference node are numbers | partial | `C97_file_slopes`, `C97_joint_capacity_partial`, `C97_regulation_partial`, `C97_slopes_missing`, `C97_costs`, `C97_costs_missing`, `C97_slopes_refuted`, `C97_costs_refuted` |
| C98 A term of type G in front of a group adds its factor times the value of the group | partial | `C98_without_id_partial`, `C98_with_id_lost`, `C98_left_out`, `C98_refuted` |
| C99 A term of type G that belongs to no group is passed over | partial | `C99_followed_partial`, `C99_last_fails`, `C99_refuted` |
