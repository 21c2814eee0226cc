# esmini — formal model in Rocq (Coq 8.16.1)

Source of truth: `/repo` (esmini at the pinned commit), read as text.  Abbreviations used in this
document and in the model comments:

| short | path |
|-------|------|
| `SE/` | `EnvironmentSimulator/Modules/ScenarioEngine/SourceFiles/` |
| `OT/` | `EnvironmentSimulator/Modules/ScenarioEngine/OSCTypeDefs/` |
| `CM/` | `EnvironmentSimulator/Modules/CommonMini/` |
| `RM/` | `EnvironmentSimulator/Modules/RoadManager/` |
| `RP/` | `EnvironmentSimulator/Applications/replayer/` |

## Layout

For each area `X` there are up to three files in `rocq/theories`:

* `XModel.v`  – executable Gallina transcription of the C++ functions; every definition cites file and lines.
* `XProofs.v` – the independent specification (small, not using model helpers) and all lemmas.
* `XProps.v`  – only the property theorems (`exact lemma`), an `Example` showing a non-trivial case
  meets the hypotheses, and `Print Assumptions`.

A property that is false of the faithful model is kept in view: the theorem `..._refuted` gives a
concrete witness, and what does hold is proved as `..._partial` (or under the explicit precondition).

## Numbers

* C++ `double` used only for time, ordering and piecewise lookup: exact rationals `Q` (axiom free,
  computable).  Rounding and NaN are not modelled unless stated; NaN-initialised caches are `option`.
* Geometry with trigonometry / square roots: Coq's `R` (the Reals axioms of the standard library,
  listed by `Print Assumptions`).
* Comparison-only float properties where NaN matters: `Coq.Floats.SpecFloat` (pure Gallina).
* `unsigned int`/`uint32_t`: `Z`/`N` with explicit `mod 2^32` where wrap-around is reachable;
  `int` lane ids etc.: `Z` (signed overflow is undefined behaviour in C++, assumed not to occur).
* Out-of-bounds access, null dereference and non-termination are explicit outcomes of the model
  (`UB`, `None`, out-of-fuel), never silently totalised.

## Plan per property

| id | what is modelled | how it is proved |
|----|------------------|------------------|
| C01 | element tree with state, transition, counters, triggers as oracle streams; Start/Step/EvalTriggers/Stop/End/Propagate/Reset with an event log (`SBModel`) | invariant over the log by induction on fuel/tree |
| C02 | `Stop` on the tree | structural induction on the tree |
| C03 | single element counter machine extracted from the same functions | invariant over op lists |
| C04 | `Event::Start` over the sibling list | case analysis + list induction |
| C05 | action tables: owner object, mask, state; `Event::Start` loop | invariant over the loop (list induction) |
| C06 | `EvaluateRule` overloads over Z, Q, string, bool and SpecFloat | direct, refutation for transitivity of tolerant equality |
| C07 | `OSCCondition::Evaluate` state machine | induction over histories against the mathematical definition of edge |
| C08 | `ConditionDelay` with its value list and cached index | refinement to "last registered value at time <= t-d" |
| C09 | `ConditionGroup::Evaluate`, `Trigger::Evaluate` | equivalence with existsb/forallb; delayed-history completeness |
| C10 | per-condition loops incl. their loop-carried variables | induction; refutation where a variable is stale |
| C11 | declaration list + restore stack | stack discipline by induction over balanced sequences |
| C12 | typed setters/getters | frame theorem over all names |
| C13 | mixed-radix decoding of the permutation index | bijection with the cartesian product |
| C14 | index state machine | invariant |
| C15 | byte-level writer/reader | round trip by induction over packets |
| C16 | reader loop | induction, skip lemma |
| C17 | delta cache writer + replay reader | refinement: replay state = tolerance of writer state |
| C18 | writer flags | trace invariant |
| C19 | `Timeline` lookups with cached index | refinement to spec lookup for every query history |
| C20 | navigation state machine | invariant over op lists |
| C21 | `LexicallyNormalizePath` on ascii lists | induction on components |
| C22 | `SplitString` | induction |
| C23 | fmod-based normalisation over R | real arithmetic |
| C24 | rotation matrices over R | ring + sin²+cos²=1 |
| C25 | Gauss-Jordan without pivoting over Q/R | field; refutation of completeness |
| C26 | `ParseArgs` | induction over argv |
| C27 | integer functions | lia |
| C28 | sorted insert + lookups | induction |
| C29 | lane section offsets | induction over lane ids |
| C30 | bidirectional search | refutation at boundaries, proof elsewhere |
| C31 | `GetConnectedLaneIdAtS` | full-length traversals proved, intermediate target refuted |
| C32 | `EstablishUniqueIds` | invariant, refutation near the id limit |
| C33 | `RoadPath::Calculate`, `CheckRoad` (`PathModel`) | invariant of the search loop: sound, earliest arrival at the target road; witnesses against shortest |
| C34 | `Route` (`RouteModel`) | chain invariant between waypoints, case analysis per segment, induction over the waypoints; witnesses |
| C35 | `PolyLineBase` (`PolyModel`) | lookups as C30, interpolation bounds, witnesses at values exactly SMALL from a vertex |
| C36 | closest lane search | argmin by list induction |
| C37 | `ResolveParametersInString` with fuel | token-level specification; refutation of termination |
| C38 | range loop of `Load`, load/reset | archimedean argument; refutations |
| C39 | `replace_data_between_times`, `clean_duplicate_timestamps` | list induction |
| C40 | string functions on ascii lists | induction; refutation for dots in directories |
| C41 | `LocateFile` over an arbitrary `exists` oracle | list induction: first existing candidate |
| C42 | Euler angle extraction over R | rotation matrices determined by three entries; refutation at exact singularities |
| C43 | plane geometry functions over R | nonlinear real arithmetic; witnesses for segment extent and tangency |
| C44 | option interface of `SE_Options` | finite map laws on the option list |
| C45 | `GetLaneInfoByS` | list induction over the sections passed; witness with a lane offset |
| C46 | `GetHeightBySAndOffset` | interpolation laws over Q; witness before the first entry |
| C47 | `Road::GetWidth`, driving lane counts | outmost lane by induction over the sorted lanes |
| C48 | polynomial and lane width derivatives | exact Taylor expansion, sums over lanes |
| C49 | junction connections, connecting lanes, direct connection (`NetModel`) | list induction against the table of lane links |
| C50 | `CalculatePolyLine`, `PolyLineShape::Evaluate` (`PolyModel`) | motion law per segment, induction over the vertices; witnesses for stops and bad input |
| C51 | `FinalizeVertices` (`PolyModel`) | the loop in place refines a function on lists, laws by its induction principle |
| C52 | `Position::MoveAlongS` (`MoveModel`) | an inductive relation of ways along the links, invariant of the loop, induction on ways for sums and ways back; witnesses |
| C53 | `TransitionDynamics`, `LongSpeedAction`, `LatLaneOffsetAction`, lateral step of `LatLaneChangeAction` (`TransModel`, over R; `TransProofs`, `SpeedProofs`, `LatProofs`) | shapes as functions on [0,1] with derivative and antiderivative, invariant of the speed action by induction on step sequences, potential function for its end; witnesses |
| C54 | `Controller` activation, `Object` controller list and queries, `AssignControllerAction`, `ActivateControllerAction`, controller loop of `SE_DeleteObject` (`CtrlModel`, masks over N; `CtrlProofs`) | bitwise specification of masks, relation kept by every operation and induction on operation sequences, exact condition for exclusiveness; witnesses |
| C55 | `Entities` lists, ids and searches, trailers, the copy constructor of `Vehicle`, the trailer actions (`EntModel`, heap of objects, hitches, couplers; `EntProofs`) | invariant kept by every allowed operation and induction on runs, induction on trailer chains, frame of copies; witnesses |
| C56 | `CollisionAndRelativeDistLatLong`, `PointCollision`, `FreeSpaceDistance`, `FreeSpaceDistancePoint` (`BoxModel`, over R; `BoxProofs`, `BoxDist`) | separating axes are enough: elimination of the two coordinates by intersecting intervals; the rim is crossed and two segments that do not cross are nearest at an end: the distance of corners and edges is the least; witnesses |
| C57 | `Object::Distance`, `FreeSpaceDistancePointRoadLane`, `FreeSpaceDistanceObjectRoadLane`, `Position::Distance`, `TimeHeadway`, `TimeToCollision` (`GapModel`, over R; `GapProofs`) | the loops over trailers are a fold over the pairs of two lists by induction on the road train; least and greatest of a fold; the projected speed is the difference on a line; witnesses |
| C58 | `ScenarioEngine::GetDistance`, `UpdateDistance`, `GenerateKey` (`CacheModel`, over R; `CacheProofs`) | keys of 32-bit ids do not meet; invariant over runs of queries: every value stored was measured by a query of the pair and kind; induction over endless runs for the kind never measured |
| C59 | `ControllerNaturalDriver` (`NatModel`, over R; `NatProofs`) | nearest of a fold by induction from the end; bounds of the acceleration by real inequalities; invariants over runs for speed and cooldown; membership in the vehicles in range through the cache of C58 by induction over the objects; lanes in a row of any number of lanes |
| C60 | `LaneIndependentRouter` (`RtrModel`, over Q; `RtrProofs`) | invariant of the search (closed under expansion up to weight, visited nodes not heavier than the queue) and induction over ways for optimality and completeness; a decreasing measure over the finite set of node keys for termination; the heap is any function giving an element no other comes before; sections tiling the road for the waypoints |
| C61 | `LongSpeedProfileAction` (`ProfModel`, over R; `ProfProofs`) | induction over entries against corners defined from the limits alone; for one target the three shapes of the plan are solved and shown smooth by algebra, and their order in time by comparing magnitudes; reachability compares with every trapezoid of acceleration; invariant of the loop over vertices (the last segment lies on the line of its vertex) |
| C62 | `LongDistanceAction`, `parseDynamicConstraints` (`KeepModel`, over R; `KeepProofs`) | bounds per step and induction over any sequence of steps; approach: an invariant (behind the distance and not faster than the critically damped spring wants) kept by every step, with the error shrinking between two factors; the refutations run exact orbits |
| C63 | `LatDistanceAction`, `DampedSpring` (`KeepModel`; `KeepProofs`) | side by case on the two directions against a definition from cosines alone; equal steps and the spring by induction with the same kind of invariant as C62; entity coordinates by the geometry of lines and circles (C49) |
| C64 | `OSCAABBTree` (`AabbModel`; `AabbProofs`) | invariant of the in-place partition; the build loop with its stack refines a binary tree held in a heap of nodes with disjoint footprints, by strong induction on the length of the part; `intersect` is a filter of the product of the leaves up to permutation, because covering boxes collide whenever covered ones do |
| C65 | `OSCTriangle2D.hpp` (`TriModel`; `TriProofs`) | affine coordinates in which the second triangle is (1,0), (0,1), (0,0) keep all signs; there each leaf of the decision tree gives a common point (a corner or where two sides cross) or a side between the two, by polynomial arithmetic in the coordinates and three products |
| C66 | `OSCSwarmTrafficGeometry.cpp`, `curve2triangles`, `createRoadSegments`, `createEllipseSegments` (`SwmModel`; `SwmProofs`) | an arc of a circle is a weighted mean of its ends and of where the tangents meet, carried over to the ellipse; chains of pieces by induction; the root search keeps a bracket of opposite signs, then the intermediate value theorem |
| C67 | `OSCGlobalAction.cpp` sampleRoads, spawn, ensureDistance, despawn, Step of the swarm (`SwpModel`; `SwpProofs`) | the random numbers and choices are arguments; that every vehicle noted is there once with one controller and that there are fewer than asked for is kept by every step; the loops by induction |
| C68 | `ControllerACC.cpp` (`AccModel`; `AccProofs`) | what positions and boxes give for the other objects is an argument of each step; the choice of whom to follow by induction over the list; speeds, safety and convergence as invariants and limits of runs of any length |
| C69 | `SynchronizeAction` (`SynModel`; `SynProofs`) | distances, projections and the speed of the master are arguments of each step; the closed form of a run by induction over steps of any size; the quadratic equation of the profile solved exactly, its solution unique |
| C70 | `IdealSensor.cpp`, `SE_FetchSensorObjectList` (`SenModel`; `SenProofs`) | exact angles over R; the list by induction over all objects with an invariant on the memory of hits; rotations inverted |
| C71 | `LightStateAction` (`LgtModel`; `LgtProofs`) | invariants over all runs of steps (transition, phases of flashing); writes to distinct lights; reals with the fourth root |
| C72 | `FollowTrajectoryAction` (`TrjModel`; `TrjProofs`) | induction over all runs of steps; closed forms of one step; angles on reals |
| C73 | `OverrideControlAction` (`OvrModel`; `OvrProofs`) | induction over elements and runs of actions |
| C74 | `vehicle::Vehicle`, `ControllerInteractive` (`VehModel`; `VehProofs`) | induction over all runs of controls; closed forms over n steps; equivariance under motions of the plane |
| C75 | `VehiclePool`, its use by swarm traffic and SUMO (`PoolModel`; `PoolProofs`) | induction over the entries of the catalogs with an invariant on the ordered map; permutation of deleted objects; exact intervals of the draw |
| C76 | `ControllerSloppyDriver` (`SlopModel`; `SlopProofs`) | invariant over all runs: reference speed, factor and timers in their ranges, so the speed is a mean of two speeds in the band; bounds over all numbers drawn |
| C77 | `ControllerUDPDriver` (`UdpModel`; `UdpProofs`) | byte-level model of the message buffer; equations of a step for every decoding of doubles; induction over steps without messages; arithmetic of ports |
| C78 | `ControllerFollowGhost` (`GhoModel`; `GhoProofs`) | polar coordinates of the target, identities of asin; the speed by C74; induction over steps |
| C79 | `ControllerOffroadFollower` (`OffModel`; `OffProofs`) | the bearing by C23, the vehicle by C74; induction over steps |

## Trusted base

* Coq 8.16.1 kernel (and `vm_compute`), plus the axioms `Print Assumptions` reports, summarised per
  theorem in the section "Assumptions" below.
* The transcription of the C++ into Gallina (reviewed by hand, cited line by line).
* C++ standard library behaviour: `std::vector`, `std::map`, `std::string`, `std::upper_bound`,
  `std::sort`, IO streams delivering bytes in order.
* `double` arithmetic idealised as described under "Numbers".

## Modelled and not modelled

Everything not listed here is not modelled.

* **Storyboard** (`SBModel`): `SE/StoryboardElement.{hpp,cpp}` and `SE/Storyboard.{hpp,cpp}` — `Start`, `Step`,
  `EvalTriggers`, `Stop`, `End`, `SetState`, `Reset`, state propagation, `Event::Start` with priorities and domain
  conflicts (including the light-action special case), `StoryBoard::Step`.  Triggers and action completion are oracles.
  Not modelled: ghost restart (`ScenarioEngine.cpp` resetting an event to standby), XML parsing of the story, the
  effect of actions on entities.
* **Conditions** (`CondModel`, `EntCondModel`): `EvaluateRule`, edges, delay, groups, triggers, the triggering-entity
  loops.  The geometric measurements inside conditions are oracles.

* **Parameters** (`ParamModel`): `SE/Parameters.cpp` declarations, restore stack, lookups, typed and textual setters/getters,
  `ResolveParametersInString`; the sequences of scope calls made by `SE/ScenarioReader.cpp` for stories, maneuver groups,
  maneuvers and inline routes.  Number/string conversion and `${...}` expression evaluation are arbitrary functions.
* **Distributions** (`DistModel`): all of `OT/OSCParameterDistribution.cpp` except XML access and file names; the permutation
  selection of `playerbase.cpp` and the loop of `Applications/esmini/main.cpp`.
* **Recording file** (`DatModel`): packet encoding of `SE/PacketHandler.hpp` (`Write`, `SerializedSize`, `WriteToBuffer`,
  `ReadPacket`, `ReadVectorPacket`), `Init`, `WritePacket`, `ReadFile`, `FillDatHeader`, string packets of
  `SE/PacketHandler.cpp`.  Scalars are opaque byte strings, little endian sizes.  Not modelled: stream failures other than end
  of file, `SavePacket`.
* **Recorder and reader** (`RecModel`): `DatWriter` of `SE/PacketHandler.{hpp,cpp}` (`Write` with its time stamp / object id flags,
  `WriteObjectStatesToDat`, `CheckDeletedObjects`, the per-object delta cache) and `ExtractPacketsAsSlices`, `ParsePackets` of
  `RP/Replay.cpp` on a recording without ghost restart.  What the global packets (time step, environment, traffic lights, element
  states) contain is arbitrary.  Not modelled: the delta caches of those global packets, ghost restarts, `FillInTimestamps`.
* **Replay** (`ReplayModel`): `Timeline` lookups and editing of `RP/Replay.hpp`, navigation of `RP/Replay.cpp` and the clamping of
  the window in `RP/main.cpp`.  Times are rationals.
* **Strings, paths, file search** (`StrModel`): `SplitString`, `SplitQuotedString`, `LexicallyNormalizePath`, `DirNameOf`,
  `FileNameOf`, the extension functions, `CombineDirectoryPathAndFilepath`, `LocateFile`, `SE_Env::AddPath`, CSV rows
  of `CM/CommonMini.{hpp,cpp}`.  The file system is an arbitrary predicate.  Windows path syntax is not modelled.
* **Angles and rotations** (`AngModel`): the angle, rotation, Euler angle and 3x3 matrix functions of `CM/CommonMini.cpp` over
  exact reals (rounding, NaN and overflow are not modelled).
* **Plane geometry** (`GeoModel`): intersections, projections, distances, angles between vectors, normalisation, offset lines and
  sectors of `CM/CommonMini.{hpp,cpp}` over exact reals.  Divisions by zero are undefined outcomes where the code divides.
* **Command line** (`OptModel`): `SE_Option` and `SE_Options` of `CM/CommonMini.{hpp,cpp}`: declaration, set/unset/clear/change,
  `ParseArgs` with the OSG argument table, `ApplyDefaultValues`, `Reset`.  Not modelled: usage text, `ParseArgs` exiting the
  process, configuration files.
* **Lanes and sections** (`LaneModel`): lane id arithmetic, `Polynomial`, storage and lookup of width, height, road mark, material, road
  type, lane offset, elevation and superelevation records, lanes and lane sections, lane boundaries, closest lane, section lookup,
  lane tracing, lane heights, road width, `Position::Lane2Track`, `Track2Lane`, `ForceLaneId` of `RM/RoadManager.{hpp,cpp}`.  Doubles
  are rationals.  Not modelled: heading offsets, global lane ids, OSI points, road marks beyond their records.
* **Ids** (`IdModel`): `EstablishUniqueIds`, `LookupIdFromStr` for roads and junctions, `GenerateRoadId`, `GetRoadById`,
  `GetTrackIdByIdx`, `IsNumber`, decimal conversion of `RM/RoadManager.cpp` and `CM/CommonMini.cpp`.  32 bit ids with wrap-around.
* **Road network and path search** (`NetModel`, `PathModel`): road links, junctions, connections and lane links,
  `Road::GetConnectingLaneId`, `IsDirectlyConnected`, `RoadPath::CheckRoad` and `Calculate` of `RM/RoadManager.cpp`.  Pointers
  are ids, distances are rationals.  Not modelled: `LaneIndependentRouter`, the path from `Position::Delta` on.
* **Routes** (`RouteModel`): `Route::SetPathS`, `MovePathDS`, `SetTrackS`, `GetWaypoint`, `CalculcateWPDirWrtWP`, `ReplaceMinimalWaypoints`,
  `AddWaypointInternal`, `AddWaypoint`, `CheckValid`.  Rationals; the path search, the distance between positions and the road links are
  parameters (the search is `PathModel`).  A position is its road, lane and s.  Not modelled: headings, route strategy, logging.
* **Moves along roads** (`MoveModel`): `Position::MoveAlongS`, `MoveToConnectingRoad`, `SetLongitudinalTrackPos`, `SetLanePos`, `SetTrackPos`,
  `Lane2Track`, `DistanceToDS` and the choice of a connection.  Rationals, over the lanes of `LaneModel` and the network of `NetModel`; of
  the heading only whether it was turned round.  Not modelled: x, y, z and angles, routes during moves.
* **Transitions and actions** (`TransModel`): class `TransitionDynamics`, `LongSpeedAction::Start`, `Step` and relative targets,
  `LatLaneOffsetAction::Start`, `Step`, the lateral part of `LatLaneChangeAction::Step` of `OT/OSCPrivateAction.cpp`.  Reals; whether a
  controller overrides the action and the speed of the referred object are parameters.  Not modelled: `LatLaneChangeAction::Start` and its
  internal position, the other actions, logging, dirty bits.
* **Controllers** (`CtrlModel`): the base class `Controller` of `CO/Controller.cpp`, the controller functions of `Object` (`SE/Entities.cpp:125-299`),
  `AssignControllerAction::Start`, `ActivateControllerAction::Start`, the controller loop of `SE_DeleteObject`.  Controllers and objects are numbers
  in a finite map as a function; `delete` sets a flag.  Of the derived classes only the use of a null object.  Not modelled: the own state of the
  derived controllers, `ControllerSumo`, `ControllerALKS_R157SM`, the storyboard side of the actions.
* **Bounding boxes** (`BoxModel`): the overlap test with its rough checks, the distances of two boxes and of a box and a point.  Not modelled: the
  numerical errors of turning and moving the corners.
* **Distances** (`GapModel`): `Object::Distance` to an object and to a point with their loops over trailers, `FreeSpaceDistancePointRoadLane`,
  `FreeSpaceDistanceObjectRoadLane`, `Position::Distance` to a position and to a point, `TimeHeadway`, `TimeToCollision`.  Trailers and tows are
  functions on object numbers; road positions of points, `Position::Delta` and the nearest place on a trajectory are oracles, any function.  An output
  never written is `None`.  The cache of `ScenarioEngine::GetDistance` (`CacheModel`)
  takes what `Position::Distance` writes as any value (0 if it writes none, as the variable is initialised).
* Natural driver (`NatModel`): a step of the controller.  What it sees (speeds, lanes, `Position::Delta`, headings, boxes, other drivers) is any value;
  `Object::MoveAlongS` is C52, the injected lane change action C53.  Not modelled: reading the parameters, division by zero.
* **Entities** (`EntModel`): `addObject`, `activateObject`, `deactivateObject`, `removeObject`, the searches, `nameExists`, `indexExists` of `Entities`,
  `TrailerVehicle`, `TowVehicle`, `ConnectTrailer`, `DisconnectTrailer` and the copy constructor of `Vehicle` (`SE/Entities.cpp`), the two trailer
  actions.  Objects, hitches and couplers are numbers, `delete` clears a flag and any later use is `Bad`, `LOG_ERROR_AND_QUIT` is `Quit`.  Not modelled:
  global ids, `AlignTrailers`, the entity actions of the storyboard, the other members of objects.
* **Trajectories** (`PolyModel`): `PolyLineBase::Evaluate`, `EvaluateSegmentByLocalS`, `Time2S`, `FindPointAhead`, `FindPointAtTime`,
  `FindPointAtTimeRelative`, `AddVertex`, `Reset`; `PolyLineShape::CalculatePolyLine`, `Evaluate`, `FinalizeVertices`,
  `VerticesUnique` of `RM/RoadManager.cpp`.  Doubles are rationals; angle normalisation, angle differences, distances, headings and
  slopes are arbitrary functions.  Vertices are values, the position pointers of the shape are not shared.  Not modelled:
  `FindClosestPoint`, clothoids, splines, NURBS.

* Lane independent router (`RtrModel`): search, weights and waypoints.  The priority queue is any function returning a first element by `WeightCompare`;
  nodes hold their predecessor instead of pointing to it (deletion is not modelled); lane links come from `NetModel`.  The heading of a waypoint is the one
  asked for in `SetHeadingRelativeRoadDirection`.

* Speed profiles (`ProfModel`): `Start`, `Step` (without `elapsed_`), the checks, `AddSpeedSegment` and `Copy`.  Division by zero, square roots of negative
  numbers and reads outside vectors are the result `None`; a first entry at time zero that is the only one (0 / 0, not used afterwards) counts among them.  Speed and
  acceleration of the object and the speed of the reference entity are arguments; the object exists.

* Keeping distances (`KeepModel`): `Start` and `Step` of both actions, `GetDistanceError`, `GetDesiredRoadPos`, `DampedSpring`, the parsing of limits.  The measured
  distance (`Object::Distance`, C58, `Position::Delta`) is an argument of every step; finding track coordinates for the wanted point and where a dynamic
  move along the road ends (`MoveAlongS`, C42) are left out.  Approach is proved with the target moving at constant speed along or across the road.

- `AabbModel` (C64): `OSCAABBTree.cpp`/`.hpp` boxes, `build`, `__build`, `divide`, `intersect`, `processCandidates`; numbers are rationals, nodes are cells of a heap, `reserve` is left out, the triangle test is an oracle. `curve2triangles` is not modelled.

- `TriModel` (C65): all of `OSCTriangle2D.hpp` and `Triangle::collide`, over the reals.
- `SwmModel` (C66): all functions of `OSCSwarmTrafficGeometry.cpp`, `curve2triangles` and the two functions that make triangles of a road and of an ellipse, over the reals; `EvaluateDS` is any function. Headings of the solutions are left out.
- `SwpModel` (C67): the population of swarm traffic, `SwarmTrafficAction::Step` from the points found onwards. Random numbers, choice of points and lanes, positions, `Position::Delta` and the vehicle catalogue are arguments; no trailers; `ControllerACC` is not part of it.
- `AccModel` (C68): `ControllerACC` - constructor, `Activate` (the speeds; not the heading set if the lateral domain is active) and `Step`. Results of `Position::Delta` and `FreeSpaceDistance` for each object are arguments; the limit of deceleration is not 0.
- `SynModel` (C69): `SynchronizeAction` - `Start` (steady state), copy constructor (steady state, tolerances), `CalcSpeedForLinearProfile` and `Step`. What positions and trajectories give (distances, directions, speeds along the road) are arguments; `GetValue` of the final speed is the value of the step. Destruction of trajectories and texts of modes are not modelled.
- `SenModel` (C70): `ObjectSensor` - constructor, `Update`, `ObjectHit` (with what the memory held before) - and `SE_FetchSensorObjectList`. Positions are given by their coordinates, headings and rates; `acos` is the real function, so that a value rounded to more than 1 (and then NaN) is not covered; drawing is not modelled.
- `LgtModel` (C71): `LightStateAction` - `Start`, `Step`, `SetVehicleLightState`, `SetVehicleLights`, `InitializeLights`, `HandleConflictingLights`, `CheckConflictingLights`, `ResetLight`, `CmykToRgb`, `SetRgbFromTypeEnum` -, `GetRgbMinMaxColor` and `SE_GetObjectLightState`. `double` is `R`; NaN (a negative base of `pow`) is not modelled; reading from XML and drawing are not.
- `TrjModel` (C72): `FollowTrajectoryAction` - constructor by copy, `Start`, `Step`, `Move`, `End` -, `MoveTrajectoryDS`, `SetTrajectoryPosByTime`, `SetTrajectoryS`, `RMTrajectory::Copy`, and s by s and by time of `PolyLineShape`, `ClothoidShape` and `ClothoidSplineShape`. `double` is `R`. Position, headings, time and speed at some s (after `Freeze`), and s by time of a polyline (C51) are arbitrary functions; the dirty bits are one flag; pitch, roll, z and the road position are left out.
- `OvrModel` (C73): `OverrideControlAction` - constructors, `AddOverrideStatus`, `Start`, `Step`, `RangeCheckAndErrorLog` -, the reading of its elements, and `copyOverrideActionListfromScenarioEngine`. `double` is `R`. Left out: texts and XML (the elements are given as read, gear numbers as integers), logging, what a ghost restart does.
- `VehModel` (C74): all driving functions, `Update`, `Reset` and the two queries of `vehicle.cpp`/`.hpp`; `ControllerInteractive` - `Step`, `Activate`, `ReportKeyEvent`. `double` is `R` (NaN, infinities and a length of 0 left out); z and pitch are left out. Where `MoveAlongS` leads, the limit of the road and whether it has several lanes are arguments; `SetInertiaPos` is taken to put the object at the coordinates given.
- `PoolModel` (C75): `VehiclePool.cpp`, all functions, `Vehicle::Category2String`, the null-ness of `Object::TrailerVehicle`, the categories of `SwarmTrafficAction::Start` and `ControllerSumo` and the fallback to the central object. Weights are `Q`; what `parseOSCVehicle` gives is an argument, a trailer taken to be owned by its vehicle; the generator's numbers are universally quantified (the real one in [0, 1] times the total).
- `SlopModel` (C76): `ControllerSloppyDriver::Step` and `Activate`, `SE_SimulationTimer::Expired`/`Elapsed`, `Object::SetSpeed`, `Position::SetHeading`/`SetHeadingRelative`. `double` is `R`; the numbers drawn are universally quantified in [0, 1]; of `MoveAlongS` the distance asked for and of `SetTrackPos` the new t are kept; the road heading is an argument of each step; between steps nothing else moves the object (where the theorem is about a run).
- `UdpModel` (C77): `ControllerUDPDriver::Step`, the ports and the vehicle of `Activate`, `port` of the constructor, `UDPServer::Receive`, the layout of `DMMessage`. Messages are bytes (little-endian, 8-byte aligned doubles), what 8 bytes are as a number is universally quantified; the bicycle model is that of C74; `SetInertiaPos` puts an object where asked; z, pitch, roll and position modes are left out; while the queue is drained nothing arrives.
- `GhoModel` (C78): `ControllerFollowGhost::Step` and `Activate`, `GetCrossProduct2D`, `RotateVec2D`. The points found on the trail are universally quantified (a function of distance or time with failure), so the index the search starts at is left out; the bicycle model is that of C74; z, pitch and the drawn sensor position are left out; `SetInertiaPos` puts the object where asked.
- `OffModel` (C79): `ControllerOffroadFollower::Step` and `Activate`, `GetLengthOfVector2D`. The speed limit of the road is universally quantified; the bicycle model is that of C74; z, pitch, roll and the strategy in junctions are left out; `SetInertiaPosMode` puts the object where asked. Not mutation-tested.

## Findings (behaviour of the code that contradicts the stated property)

* Execution counter is not reset when an enclosing maneuver group re-arms an event (`C03_fresh_count_refuted`).
* Init actions are started without any check for domain conflicts among themselves (`C05_init_actions_refuted`).
* Tolerant equality is not transitive; see the `…_refuted` theorems in `CondProps.v`.
* Stale loop-carried variables in triggering-entity loops; see the `…_refuted` theorems in `EntCondProps.v`.

* Declarations inside a maneuver or an inline route push the restore stack without popping it, so the declarations of the
  enclosing story stay visible in later stories (`C11_story_refuted`, `C11_story_route_refuted`).
* A declaration does not shadow an outer parameter whose value was modified (`C11_shadow_modified_refuted`).
* `ResolveParametersInString` does not terminate when a value mentions its own name (`C37_terminates_refuted`).
* Distribution: count wraps at 2^32 (`C13_overflow_refuted`), an empty distribution loaded on top leads to a division by zero
  (`C14_empty_distribution_refuted`), step width <= 0 never terminates, loading twice multiplies (`C38_…_refuted`).
* Recording: a file cut inside its last packet is accepted with the missing bytes read as zero (`C16_truncated_refuted`); a string
  packet shorter than its length field is read outside the buffer (`C16_short_string_refuted`).
* Recording: changes of colour and outline after the first step are not recorded (`C17_colour_change_refuted`); an object removed and
  added again whose value equals the initial cache value is replayed with the value from its former life
  (`C17_stale_value_refuted`); clearing a name makes the file unreadable (`C17_empty_name_refuted`); a recording without a
  non-zero time step is refused and an empty one is undefined behaviour (`C17_no_dt_refuted`, `C17_empty_refuted`); an unknown
  packet before the first time stamp is undefined behaviour (`C16_unknown_first_refuted`).
* Replay: `get_value_binary` at or after the last entry returns the last but one value (`C19_binary_refuted`); lookups depend on
  the history when entries are closer than two tolerances (`C19_close_times_refuted`); after a jump between frames, playing on
  skips a frame (`C20_play_after_jump_refuted`); `SetTimeToNearestTimestamp` can leave the window (`C20_nearest_refuted`).
* Strings: `SplitQuotedString` drops unquoted text directly before a quoted word (`C22_quoted_refuted`); a CSV row loses a trailing
  empty field (`C22_csv_refuted`); the extension functions use the last dot of the whole path, also one in a directory name
  (`C40_extension_refuted`).
* Angles: `GetAngleOfVector` tilts vertical vectors (`C23_vector_angle_refuted`); `RotateVec3d` and `InverseRotateVec3d` do not cancel
  exactly at singular orientations, the error is bounded (`C24_inverse_refuted`, `C24_inverse_bound`); `Global2LocalCoordinates` and
  `Local2GlobalCoordinates` use opposite signs for the heading (`C24_same_heading_refuted`); `InvertMatrix3` has no pivoting and
  refuses invertible matrices, and its caller ignores the failure (`C25_complete_refuted`, `C42_relative_refuted`).
* Geometry: `GetIntersectionOfTwoLineSegments` ignores the extent of the segments (`C43_segments_refuted`); a line that passes a
  circle at a small distance counts as a hit (`C43_tangent_refuted`); the circle intersection divides by zero for equal points and
  for a discriminant of exactly -1e-6 (`C43_circle_undefined`).
* Command line: a positional argument after an option value replaces the value (`C26_swallowed_refuted`); repeating an option
  without its value unsets it (`C26_repeated_refuted`); the value of an unknown option becomes the default argument
  (`C26_unknown_value_refuted`); undeclared names that OSG knows are not reported (`C26_undeclared_refuted`); extra positional
  arguments are dropped silently (`C26_extra_refuted`); without a default option a positional argument is a null access
  (`C26_no_default_option`).
* Lanes: lane arithmetic from the centre lane (`C27_centre_refuted`); materials closer than 1e-6 (`C28_material_refuted`); lane offset
  ahead of its first record (`C28_lane_offset_ahead_refuted`); offset and elevation records out of order
  (`C28_lane_offset_order_refuted`, `C28_elevation_order_refuted`); elevation, roll and section lookups depend on the previous index
  at boundaries (`C28_elevation_refuted`, `C28_roll_refuted`, `C30_boundary_refuted`); `GetWidthBetweenLanes` across the centre
  (`C29_width_between_refuted`); lane tracing to a target in the middle of the road moves one section too far
  (`C31_intermediate_refuted`); lane offset ignored when tracing for lane info (`C45_offset_refuted`); heights extrapolated
  (`C46_ahead_refuted`); the derivative of a scaled polynomial lacks the factor (`C48_scale_refuted`).
* Ids: wrap-around at the maximal id (`C32_max_refuted`), references to repeated ids (`C32_repeated_refuted`), loading on top of
  another file (`C32_on_top_refuted`).
* Path search: not the shortest distance when the target road is met first at its far end (`C33_shortest_refuted`); null access on
  a dangling road link (`C33_null_refuted`); gives up after 100 rounds (`C33_rounds_refuted`); two connections to the target add
  the rest twice (`C33_twice_refuted`); the sign convention differs between the own and other roads (`C33_sign_refuted`); a dead-end
  lane hides a continuing one (`C33_lane_refuted`).
* Junctions: the contact point is written even when no connection is found for the lane (`C49_contact_refuted`); the lane is not
  checked on direct road links (`C49_lane_ignored_refuted`).
* Polylines: result depends on the start index exactly SMALL past a vertex (`C35_hint_refuted`); s not clamped before the start
  (`C35_clamp_refuted`); time lookup out of bounds exactly SMALL before the last vertex (`C35_time_total_refuted`) and not monotone just
  before a vertex (`C35_time_monotone_refuted`); 0 instead of the first s (`C35_time_start_refuted`); empty polyline
  (`C35_time_relative_refuted`); length 0 after a reset that keeps vertices (`C35_reset_refuted`).
* Trajectory timing: no stop at repeated places in mode follow (`C50_stop_refuted`); one vertex only is an access out of bounds
  (`C50_single_refuted`); equal times divide by zero (`C50_equal_times_refuted`); speed of the last vertex never set in mode position
  (`C50_last_speed_refuted`); jump with negative initial speed (`C50_negative_speed_refuted`); accelerations kept from mode follow
  (`C50_stale_acceleration_refuted`).
* Routes: the path length is not updated by moves (`C34_moves_refuted`); positive distances move backwards on roads driven against their
  direction (`C34_forward_refuted`); access past the last waypoint, an `&&`/`||` grouping (`C34_last_refuted`); position set off the road
  when the state is not updated (`C34_past_refuted`); roads passed twice (`C34_twice_refuted`); `ReplaceMinimalWaypoints` leaves the length
  and is wrong for two waypoints of a road (`C34_replace_length_refuted`, `C34_replace_same_refuted`); after a removed waypoint those in
  between are measured from it (`C34_removed_refuted`).
* Moves along roads: after 8 links the move ends without error and short (`C52_limit_refuted`); a lane offset change is applied once per road
  entered and once more, and with the wrong sign moving backwards onto a road's end (`C52_offset_repeated_refuted`,
  `C52_offset_sign_refuted`); without lane link onto a road running the other way the side and heading are wrong (`C52_gap_refuted`); a lane
  link to a missing lane leads onto the centre lane without error (`C52_bad_link_refuted`); after an error the position has moved
  (`C52_error_moves_refuted`); on the centre lane lane direction is backwards (`C52_centre_refuted`); curvature is not rechecked after
  snapping (`C52_distance_refuted`); tolerances of the angle choice add up (`C52_angle_tolerance_refuted`).
* Speed actions: started again, an action given by a distance takes its former duration as distance (`C53_speed_restart_refuted`); with a
  target above the largest speed it covers less than the distance (`C53_speed_distance_refuted`); tiny opposite speeds divide by zero
  (`C53_speed_divzero_refuted`); rate 0 never ends (`C53_speed_zero_rate_refuted`); the step shape ignores the limits of the object
  (`C53_speed_step_shape_refuted`), as does a step of length 0 with a moving target (`C53_speed_zero_step_refuted`).  Lane change: too slow
  for a cubic or sinusoidal shape, the offset jumps (`C53_change_jump_refuted`).
* Controllers: from OpenSCENARIO 1.3 the activation action deactivates the controller it activates instead of the conflicting one, so two
  controllers share a domain (`C54_activate_action_exclusive_new_refuted`); before, only the first conflict is resolved
  (`C54_activate_action_exclusive_old_refuted`) and activating an active controller again drops its other domains
  (`C54_activate_action_again_refuted`).  The assignment action hands the lateral request to the longitudinal domain and the other way round
  (`C54_assign_action_requested_refuted`, `C54_assign_action_longitudinal_refuted`).  `SE_DeleteObject` of an object with a controller always uses an
  invalidated reference (`C54_delete_object_with_controllers_refuted`); removing a route following controller uses a null pointer
  (`C54_removal_follow_route_refuted`); the type argument of the domain queries is ignored (`C54_object_query_by_type_refuted`).
* Entities: removing a trailer, a tow alone or an object of the pool leaves a pointer to a deleted object behind
  (`C55_removed_trailer_dangles_refuted`, `C55_removed_tow_dangles_refuted`, `C55_removed_from_pool_refuted`); trailers in a circle are removed with
  unbounded recursion (`C55_remove_circle`); `indexExists` answers the opposite (`C55_index_exists_refuted`); a trailer taken over keeps hanging at its
  former tow (`C55_two_tows_refuted`); a tow without hitch is half connected (`C55_half_connected_refuted`); copies of a vehicle share its free hitch
  (`C55_copy_shares_hitch_refuted`); a parted convoy stays parted (`C55_convoy_stays_parted_refuted`).
* Bounding boxes: the rough check rules out overlapping boxes whose positions are far apart (`C56_rough_refuted`); the free space distance ignores
  height, an object on a bridge is at distance zero from the one below (`C56_bridge_refuted`).
* Lane independent router: the way on the target road counts nothing if that road is entered by a link to a junction (`C60_metres_refuted`); a target
  in the lane beside the start is not found or found after a lap (`C60_beside_refuted`); a turning loop entered at its start is taken to be left
  there, and so is a road behind a direct junction whose other end leads to a road with the id of the junction (`C60_other_end_refuted`); the speed
  limit of town arterial, collector and expressway roads is ignored (`C60_type_speed_refuted`); a link to a junction that does not exist reads a null
  pointer (`C60_ends_refuted`).
* Speed profiles: entries on a line are merged, after which the action never ends (`C61_ends_refuted`) or the slope goes on past the last entry
  (`C61_line_refuted`); entries without times make the speed jump (`C61_no_times_refuted`), three of them read before the first vertex
  (`C61_three_refuted`); without entries the first step reads an empty vector (`C61_empty_refuted`); where no solution is found the speed drops to nothing
  (`C61_no_solution_refuted`); with equal first slopes in follow mode the last speed is missed (`C61_equal_refuted`); falling back to position mode jumps
  (`C61_fallback_refuted`); a first entry relative to an entity delays the start (`C61_relative_refuted`); a copied action has no limits
  (`C61_copy_refuted`).
* Natural driver: in the outermost lane of a one-way road no other lane is ever offered (`C59_lanes_refuted`); a standing driver changes to lane 0
  (`C59_standing_refuted`); without a route lane -1 is changed to although one has to brake there (`C59_route_refuted`); while changing lanes nobody
  ahead is braked for (`C59_deaf_refuted`); a vehicle more than twice the lookahead distance away is not looked at for three seconds
  (`C59_late_refuted`), and at time 0 one that looked first is not seen (`C59_start_refuted`); the desired speed is set even above the maximum speed of
  the vehicle (`C59_max_refuted`); free space to a vehicle behind takes the wrong ends of the boxes (`C59_freespace_behind_refuted`).
* Cached distances: the absolute distance of objects more than 500 m apart is the square of it (`C58_squared_refuted`); at time 0 the second of two
  objects asking for each other gets 10000 (`C58_second_refuted`); of two kinds asked for at every step the second is never measured
  (`C58_starved_refuted`).
* Distances: asking for the distance to a trailer never returns (`C57_towed_target_refuted`); along the road trailers of the target are ignored
  (`C57_road_trailers_refuted`), a long vehicle beside a short one is metres away along the road (`C57_road_inside_refuted`), a point within a turned
  vehicle too (`C57_point_road_refuted`); in world coordinates success is reported without a result and the headway is taken from an unset variable
  (`C57_unset_refuted`); on a trajectory the lateral distance of an object off it is its whole distance (`C57_trajectory_lateral_refuted`) and the
  distance of a point is the own place (`C57_point_trajectory_refuted`); a standing vehicle foresees no oncoming one and foresees one driving away behind
  it (`C57_ttc_standing_refuted`).
* Vertex filter: heading differences compared with sign (`C51_turn_refuted`); the last vertex may be near (`C51_last_refuted`).
* Keeping a longitudinal distance: the rate limit is passed when the acceleration changes sign (`C62_jerk_refuted`); with steps of 1 s the object swings for ever
  (`C62_swings_refuted`); from far behind it runs into the target (`C62_collides_refuted`); a restarted action brakes with what is left of the acceleration
  (`C62_restart_refuted`); a speed limit alone is ignored (`C62_speed_refuted`); without a route the object is moved by 1e10 m (`C62_no_route_refuted`); a time
  gap behind a standing target is no distance (`C62_time_gap_refuted`).
* Keeping a lateral distance: entity coordinates never end (`C63_entity_ends_refuted`), lane and trajectory coordinates do nothing (`C63_other_refuted`);
  standing or reversing takes the root of a negative number (`C63_standing_refuted`); without a path an uninitialised distance is used (`C63_no_path_refuted`); a restart aims
  elsewhere (`C63_restart_refuted`) and keeps the old motion (`C63_leftover_refuted`); the override check looks at the longitudinal domain
  (`C63_override_refuted`); a standing object is turned to heading 0 (`C63_heading_refuted`).

- C64: building a tree again from an empty vector returns at once and keeps the old box and counts, so the tree is still reported as not empty and still collides (`C64_rebuild_refuted`). A road triangle that meets two triangles of the ellipse is put into the solutions twice, so the same road is a spawn candidate twice (`C64_twice_refuted`).
- C65: with the first corner of the first triangle beyond the side from a2 to b2 of the second (counterclockwise) and within the other two, `intersection2d` passes `(b2, c2)` to `intersection_test_edges` where the side crossed is that of `(b2, a2)`; overlaps are missed (`C65_missed_refuted`: a corner well inside) and the answer changes when the triangles are swapped; on the line of b2 and c2 a yes may be wrong (`C65_false_refuted`), and so with a flat second triangle (`C65_flat_refuted`).
- C66: `tangentIntersection` uses `s1 - s0` as a length when the tangents are within a degree; for the ellipse these are angles. For an ellipse more than about five times as long as wide the triangle at the end of the minor axis does not contain its arc (`C66_arc_refuted`), so roads crossing there are missed.
- C66: `createRoadSegments` starts a line at `GetS()`, the place along the road, though it is then used as a place along the line: lines that do not start the road lose their beginning, or all (`C66_line_refuted`). Lines towards the north-east give flat triangles (`C66_flat_refuted`), for which the overlap test is wrong (`C65_flat_refuted`).
- C66: `brent_zeros` exchanges the values but not the ends if the second is the larger; then both ends are on the same side after the first turn (`C66_lost_refuted`), and for f(x) = x on [-1, 3] it reports a root at about 1 (`C66_root_refuted`).
- C67: the number of new vehicles is drawn below `maxN - 1`, so the number asked for is never reached, and with `numberOfVehicles` 1 there is never a vehicle (`C67_one_refuted`). A negative number is taken as unsigned (`C67_negative_refuted`).
- C67: with fewer points than vehicles to add, points in junctions are not left out (`C67_junction_refuted`). Several lanes drawn for a point are in vain: the distance is measured from the point, so the second lane is always closer than 20 m (`C67_one_lane`).
- C67: copies of a central object that drives against its road all get the wrong direction (`C67_direction_refuted`); a vehicle with two controllers is undefined behaviour when taken away (`C67_controllers_refuted`).
- C68: an object right in front replaces one already found even if that one is nearer; the nearer one is then driven into, though alone it would stop the vehicle (`C68_nearest_refuted`).
- C68: nearer than a metre the vehicle stops in one step whatever its limit, and a virtual controller asks for acceleration 0 instead of braking (`C68_limit_refuted`, `C68_limit_ex`). With steps longer than a metre a standing vehicle is driven into (`C68_hit_refuted`), and from then on is not seen any more (`C68_forgotten`).
- C68: with strong acceleration (200 m/s2, 0.01 s) the set speed is passed, speeds may become negative (`C68_passed_refuted`) or swing for ever (`C68_swing_refuted`). A speed changed by others by up to 0.001 m/s in each step, as 1 m/s2 does with steps of 1 ms, is put back every time (`C68_slow_refuted`). The log line on a new set speed shows the old one (`ControllerACC.cpp:100-101`).
- C69: a steady state given by a position before the target is never entered, as the distance is taken from the target and is negative (`C69_steady_position_refuted`, `OSCPrivateAction.cpp:2648-2650`).
- C69: the copy constructor looks at the type the new object's memory happens to hold, never copies the time of a steady state, and drops the tolerances (`C69_copy_refuted`, `OSCPrivateAction.hpp:890-919`).
- C69: without final speed an object that is too fast passes its target long before the master arrives (`C69_early_refuted`); within a millimetre of the target the speed is 0, also at the final speed (`C69_near_refuted`); a step may make the speed negative (`C69_negative_refuted`).
- C70: the angle to an object has no sign, so a sensor to the left also reports what is to the right (`C70_mirror_refuted`) and one to the right reports nothing at all (`C70_right_refuted`, `IdealSensor.cpp:110-112`).
- C70: `hitList_` has room for `maxObj` objects, but this is not checked: more objects in view are written past its end (`C70_overflow_refuted`, `IdealSensor.cpp:115`).
- C70: `velZ_` and `accZ_` are never set but sent out (`C70_vertical_refuted`, `OSIReporter.cpp:222-226`); rates of the heading are wrapped as if they were angles (`C70_rate_refuted`).
- C71: unless a step falls on the end of a transition (to 1e-6 s), the action ends with the luminosity of the step before: a light switched off in 1 s with steps of 0.3 s stays at a tenth, with mode OFF (`C71_off_refuted`, `OSCPrivateAction.cpp:3235`).
- C71: a colour with all channels at least 0.6, but not equal, e.g. (0.7, 0.8, 0.9), has no maximum: emission is -1 in all channels and the light is said not to emit (`C71_bright_refuted`, `CommonMini.cpp:1377`).
- C71: `emitting` is decided by the blue channel alone, not by any (`C71_any_refuted`, 3138-3146); with the colours computed by the code this makes no difference.
- C71: a light reset because of a conflict has no emission and is off, but `SE_GetObjectLightState` still says it emits, and the next transition starts at its old luminosity (`C71_stale_refuted`, 3374-3380).
- C71: an unknown mode (a typing error in the scenario) makes the light go dark (`C71_unknown_refuted`); a `LightType` with no `VehicleLight` inside makes `Start` write outside of the array (`C71_type_refuted`); a transition time above 0 and below 1e-6 changes nothing but the mode (`C71_tiny_refuted`).
- C72: a copy of the action starts at `timing_offset_` instead of `initialDistanceOffset_` (`C72_copy_offset_refuted`, `OSCPrivateAction.hpp:1192`), and its trajectory is never closed (`C72_copy_closed_refuted`, `RoadManager.cpp:15395`).
- C72: reversing past the start of a polyline loses the rest of the way (`C72_back_lost_refuted`); on a clothoid spline it is driven forward (`C72_back_forth_refuted`, `OSCPrivateAction.cpp:536, 546`).
- C72: a closed trajectory is not driven round: the entity stands at its end for ever, at whatever speed (`C72_closed_round_refuted`).
- C72: the rest of the time after the last time stamp is multiplied by the speed without taking off the scale (`C72_scale_refuted`, 542-543); with absolute times and an offset the speed in the last step is wrong (`C72_offset_speed_refuted`, 609 leaves `timing_offset_` out).
- C72: under longitudinal override a timed action does not end, even at the end of the trajectory (`C72_long_end_refuted`); an action started under lateral override never moves the entity after control is back (`C72_takeover_refuted`).
- C72: `ClothoidShape::Evaluate` takes off the start time twice (`C72_clothoid_start_refuted`, `RoadManager.cpp:14158-14160`); before its first time a clothoid or clothoid spline is at its end (`C72_too_early_refuted`, 13480, 14165).
- C73: an inactive status clears the domain an active one before it has claimed (`C73_domain_of_active_refuted`, `OSCPrivateAction.cpp:3617`): `[Brake active, Throttle inactive]` does not end a running longitudinal action, the other order does (`C73_order_refuted`).
- C73: a copied override action (init actions of a ghost, `ScenarioEngine.cpp:993`) claims no domain (`C73_copy_domains_refuted`, `OSCPrivateAction.hpp:1693`).
- C74: a brake held drives backwards when the speed comes to 0 exactly, as `oldSpeed > 0` fails in the next step (`C74_brake_held_refuted`, `vehicle.cpp:101`).
- C74: going from brake to accelerate without a step with neither never releases the handbrake (`C74_drives_off_refuted`, `vehicle.cpp:90-96`).
- C74: engine braking is applied per step, not per time (`C74_coast_time_refuted`, `vehicle.cpp:111, 165`).
- C74: the target speed is not reached in steps of 2 / acceleration, for `ControllerFollowGhost` 0.2 s (`C74_target_reached_refuted`, `vehicle.cpp:72`); `DrivingControlTarget` ignores what is disabled (`C74_target_disabled_refuted`).
- C74: `GetThrottleDisabled` returns `steering_disabled_` (`C74_throttle_query_refuted`, `vehicle.hpp:132`).
- C74: releasing one arrow key ends the effect of the opposite one still held (`C74_key_held_refuted`, `ControllerInteractive.cpp:143-160`).
- C75: from catalogs with neither car, bus nor motorbike the swarm draws single trailers, which weight 0 is meant to rule out: SMALL_NUMBER is added to the first category by name, and with trailers alone they are all there is and the central object is not used (`C75_no_single_trailer_refuted`, `VehiclePool.cpp:198`, `OSCGlobalAction.cpp:402`).
- C75: a category that is not in the pool gives a vehicle of another category, not nullptr (`C75_unknown_category_refuted`, `VehiclePool.cpp:188-203`).
- C75: `AddVehicle` does not update the total: a category added that comes last by name is never drawn (`C75_added_drawn_refuted`, `VehiclePool.cpp:137-145`); it returns the number of categories less one (`C75_add`).
- C75: weights with a negative sum give `std::uniform_real_distribution` bounds in the wrong order (`C75_random_undefined`); an entry that does not parse is dereferenced (`C75_init_undefined`).
- C76: overriding, the heading relative to the road is set as heading in the world: on a road to the north a vehicle with no sloppiness, in its lane and along the road, is turned east (`C76_heading_refuted`, `ControllerSloppyDriver.cpp:162`).
- C76: a speed set from somewhere else, which a comment says is respected, is taken up only bit by bit: set from 10 to 20, the next step goes on below 11 (`C76_set_speed_refuted`, `ControllerSloppyDriver.cpp:68-95`).
- C76: the lateral deviation aimed at is never to the other side (`C76_fuzz_range`) and, fully sloppy, is above the half lane width of the comment for four draws of five, up to 7.5 m (`C76_half_lane_refuted`, `ControllerSloppyDriver.cpp:126-128`).
- C76: a vehicle that goes backwards is stopped in the first step (`C76_reverse_refuted`, `ControllerSloppyDriver.cpp:96`).
- C77: dead reckoning of a full state reads `stateXYH.deadReckon`: not the flag but the first byte of the roll angle decides (`C77_reckon_full_refuted`, `ControllerUDPDriver.cpp:308`).
- C77: a message of an unsupported version or for an unknown object, said to be ignored, is kept as the last one, and the object is moved by it in the next step without message (`C77_ignored_refuted`, `ControllerUDPDriver.cpp:208`).
- C77: a state of another object with dead reckoning moves the controller's own object, which takes over speed and heading (`C77_other_refuted`, `ControllerUDPDriver.cpp:338`).
- C77: a datagram cut short is filled up with bytes of the one before (`C77_short_refuted`).
- C77: states do not set the speed of the internal vehicle, though it is said to be updated for driver input that follows: the vehicle has the speed it had on activation (`C77_speed_after_state_refuted`, `ControllerUDPDriver.cpp:252`, `266`).
- C77: base port and object id may add up to more than 65535; the socket then has another port and is made anew on each activation (`C77_port_beyond_refuted`, `ControllerUDPDriver.cpp:367`); a port given may be that of another object (`C77_port_given_refuted`).
- C78: the direction to the target is an arc sine, so a target behind is taken for its mirror image in front: a ghost straight behind is driven away from (`C78_direction_refuted`, `C78_behind_refuted`, `ControllerFollowGhost.cpp:216`).
- C78: speed and position are set whatever the active domains: following in the lateral domain only changes the speed (`C78_lateral_refuted`, `ControllerFollowGhost.cpp:228-229`).
- C78: a position the object was given from elsewhere is lost in the next step (`C78_teleport_refuted`).
- C79: the parameter `speedFactor` is read and never used (`C79_factor_ignored`, `ControllerOffroadFollower.cpp:61`).
- C79: at the distance set and the speed of the leader the speed is not kept, drag takes a thousandth per step (`C79_keeps_refuted`).
<!-- assumptions:begin -->
## Assumptions

Output of `Print Assumptions` for every property theorem, grouped by file.

* `AabbProps.v` — none (closed under the global context):
  C64_box, C64_collide, C64_divide, C64_axis, C64_nothing, C64_build, C64_intersect, C64_finds, C64_rebuild_refuted, C64_twice_refuted.
* `AccProps.v` — `ClassicalDedekindReals.sig_not_dec`:
  C68_gap, C68_real, C68_nobody, C68_nearest, C68_seen, C68_own, C68_nearest_refuted, C68_set, C68_slow_refuted, C68_behind, C68_range, C68_reach, C68_safe, C68_hit_refuted, C68_forgotten, C68_effect.
* `AccProps.v` — `ClassicalDedekindReals.sig_forall_dec`, `FunctionalExtensionality.functional_extensionality_dep`:
  C68_look, C68_activate, C68_defaults, C68_cruise, C68_swing_refuted, C68_passed_refuted, C68_rate, C68_limit_refuted, C68_balance, C68_brake.
* `AngProps.v` — `ClassicalDedekindReals.sig_not_dec`:
  C23_interval_2pi, C23_interval_pm_pi, C23_unique, C23_sum, C23_difference, C23_abs_difference, C23_forward, C24_plane_compose, C24_plane_inverse, C24_plane_length, C24_axes, C24_inverse, C24_inverse_bound, C24_inverse_refuted, C24_length, C24_local_global, C24_global_local, C24_same_heading_refuted.
* `AngProps.v` — `ClassicalDedekindReals.sig_not_dec`, `Classical_Prop.classic`:
  C23_vector_angle, C23_vector_angle_refuted, C42_compose, C42_range, C42_zyz, C42_relative, C42_relative_refuted.
* `AngProps.v` — `ClassicalDedekindReals.sig_forall_dec`, `FunctionalExtensionality.functional_extensionality_dep`:
  C25_inverse, C25_success, C25_complete_refuted, C25_product.
* `BoxProps.v` — `ClassicalDedekindReals.sig_not_dec`:
  C56_distance, C56_distance_thin, C56_overlap, C56_symmetric, C56_lateral, C56_longitudinal, C56_inside, C56_nobody, C56_collides, C56_compact, C56_collision_only, C56_collision_symmetric, C56_collision_distance, C56_point, C56_point_distance, C56_point_components, C56_rough_refuted, C56_bridge_refuted.
* `CacheProps.v` — none (closed under the global context):
  C58_key.
* `CacheProps.v` — `ClassicalDedekindReals.sig_forall_dec`, `FunctionalExtensionality.functional_extensionality_dep`:
  C58_answer, C58_measured, C58_measured_near, C58_squared_refuted, C58_second_refuted, C58_starved_refuted.
* `CacheProps.v` — `ClassicalDedekindReals.sig_not_dec`:
  C58_far.
* `CondProps.v` — none (closed under the global context):
  C06_double_complements, C06_double_meaning, C06_double_trichotomy_partial, C06_double_exclusive, C06_double_trichotomy_refuted, C06_float_complements, C06_float_nan, C06_int, C06_string, C06_bool, C06_int_meaning, C06_string_meaning, C06_bool_meaning, C07_edge, C07_callback, C08_delay, C08_delay_fixed_step, C08_delay_exact_refuted, C08_same_time_oob_refuted, C08_restart_sorted_refuted, C09_trigger_value, C09_trigger_run, C09_delayed_always_evaluated, C09_edge_order_refuted.
* `CtrlProps.v` — none (closed under the global context):
  C54_activation_per_domain, C54_activation_keeps_identity, C54_activation_alignment, C54_activation_null_object, C54_activation_defined, C54_deactivation_per_domain, C54_deactivation_alignment, C54_deactivation_keeps_identity, C54_deactivation_null_object, C54_deactivation_all, C54_domain_masks, C54_query_on_domains, C54_query_on_any, C54_query_on_none, C54_query_on_only, C54_query_active, C54_active_within_operating, C54_assigned_once, C54_identity_kept, C54_object_active_on_domains, C54_object_active_on_any, C54_object_mode_on_domains, C54_object_mode_on_any, C54_object_controller_of_type, C54_object_controller_on_domain, C54_object_query_by_type_refuted, C54_object_active_jointly_refuted, C54_assignment, C54_assignment_order, C54_removal, C54_removal_fails, C54_removal_follow_route_refuted, C54_removal_of_all, C54_removal_of_all_fails, C54_removal_of_all_unlinks_refuted, C54_assignment_to_one_object_refuted, C54_delete_object_with_controllers_refuted, C54_delete_object_without_controllers, C54_activate_action_starts, C54_activate_action_new, C54_activate_action_old, C54_activate_action_exclusive_new, C54_activate_action_exclusive_old, C54_activate_action_exclusive_new_refuted, C54_activate_action_exclusive_old_refuted, C54_activate_action_again_refuted, C54_assign_action, C54_assign_action_requested_partial, C54_assign_action_requested_refuted, C54_assign_action_longitudinal_refuted, C54_assign_action_exclusive_refuted, C54_assign_action_fails.
* `DatProps.v` — none (closed under the global context):
  C15_packets, C15_file, C15_scalars, C15_string, C15_vector, C15_arguments, C15_vector_not_last_refuted, C16_unknown_delimited, C16_longer_payload, C16_shorter_payload, C16_cut_field, C16_header_extension, C16_major_refused, C16_short_tail, C16_truncated_refuted, C16_truncated_value, C16_short_string_refuted.
* `DistProps.v` — none (closed under the global context):
  C13_enumeration, C13_application_runs_all, C13_application_single, C13_overflow_refuted, C14_index_in_range, C14_set_rejected, C14_request_rejected, C14_increment, C14_empty_distribution_refuted, C38_range_terminates, C38_range_values, C38_range_terminates_refuted, C38_load_partial, C38_load_refuted.
* `EntCondProps.v` — none (closed under the global context):
  C10_simple_any, C10_simple_all, C10_headway_ttc_any, C10_collision_endofroad_any, C10_reach_any, C10_standstill_offroad_any, C10_clearance_all, C10_clearance_any_partial, C10_clearance_any_refuted, C10_sticky_all_partial, C10_sticky_all_refuted, C10_reach_all_refuted, C10_duration_all_refuted, C10_headway_ttc_all_partial, C10_headway_ttc_order_refuted.
* `EntProps.v` — none (closed under the global context):
  C55_step, C55_run, C55_once, C55_active, C55_ids, C55_trailer_listed, C55_no_dangling, C55_ids_grow, C55_activate, C55_deactivate, C55_activate_any, C55_deactivate_any, C55_activate_again, C55_deactivate_again, C55_convoy_parted_refuted, C55_convoy_stays_parted_refuted, C55_add, C55_add_hooked, C55_add_too_many, C55_add_limit, C55_added_twice_refuted, C55_remove, C55_remove_one, C55_remove_by, C55_remove_circle, C55_removed_trailer_dangles_refuted, C55_removed_tow_dangles_refuted, C55_removed_from_pool_refuted, C55_by_id, C55_by_none, C55_by_some, C55_by_active_first, C55_index, C55_name_exists, C55_index_exists_refuted, C55_connect, C55_disconnect, C55_disconnect_none, C55_connect_none, C55_connect_same, C55_connect_others, C55_two_tows_refuted, C55_half_connected_refuted, C55_copy, C55_copy_shares_hitch_refuted.
* `FiltProps.v` — none (closed under the global context):
  C51_off, C51_filter, C51_ends, C51_times, C51_vertices, C51_same, C51_spaced, C51_stop, C51_apart, C51_turn_refuted, C51_last_refuted, C51_drift_refuted.
* `GapProps.v` — `ClassicalDedekindReals.sig_not_dec`:
  C57_pairs, C57_gap, C57_sign, C57_alone, C57_towed_target_refuted, C57_point, C57_road, C57_road_kinds, C57_no_system, C57_road_object, C57_road_point, C57_positions, C57_trajectory, C57_trajectory_lateral_refuted, C57_point_trajectory_refuted, C57_unset_refuted, C57_headway, C57_headway_none, C57_ttc, C57_ttc_line, C57_ttc_meets, C57_ttc_standing_refuted, C57_road_trailers_refuted, C57_road_inside_refuted, C57_point_road_refuted.
* `GapProps.v` — `ClassicalDedekindReals.sig_forall_dec`:
  C57_ttc_nobody.
* `GeoProps.v` — `ClassicalDedekindReals.sig_forall_dec`, `FunctionalExtensionality.functional_extensionality_dep`:
  C43_intersection, C43_parallel, C43_segments_refuted, C43_projection, C43_vector_projection, C43_cross.
* `GeoProps.v` — `ClassicalDedekindReals.sig_not_dec`:
  C43_circle, C43_circle_undefined, C43_tangent_refuted, C43_between, C43_edge, C43_edge_any, C43_line, C43_signed, C43_signed_defined, C43_with_angle, C43_line3, C43_signed_length, C43_normalize, C43_normalize3, C43_sector.
* `GeoProps.v` — `ClassicalDedekindReals.sig_not_dec`, `Classical_Prop.classic`:
  C43_signed_angle, C43_angle, C43_angle3, C43_offset.
* `GhoProps.v` — `ClassicalDedekindReals.sig_not_dec`, `Classical_Prop.classic`:
  C78_direction, C78_mirrored, C78_direction_refuted, C78_quarter, C78_side, C78_at_target, C78_step, C78_params, C78_speed, C78_lost, C78_behind_refuted, C78_domains, C78_lateral_refuted, C78_together, C78_limit, C78_teleport_refuted, C78_mirrored_right, C78_straight_step.
* `GhoProps.v` — `ClassicalDedekindReals.sig_not_dec`:
  C78_domain, C78_rotate.
* `GhoProps.v` — `ClassicalDedekindReals.sig_forall_dec`, `FunctionalExtensionality.functional_extensionality_dep`:
  C78_target, C78_no_target, C78_activate, C78_defaults, C78_activate_fresh.
* `GhoProps.v` — none (closed under the global context):
  C78_no_ghost.
* `IdProps.v` — none (closed under the global context):
  C32_number, C32_distinct, C32_digits, C32_room, C32_strings, C32_kept, C32_conflict, C32_lookup, C32_lookup_junction, C32_roundtrip, C32_index, C32_generate, C32_max_refuted, C32_repeated_refuted, C32_on_top_refuted.
* `KeepLatProps.v` — `ClassicalDedekindReals.sig_not_dec`:
  C63_side, C63_way, C63_glides, C63_restart_refuted, C63_leftover_refuted.
* `KeepLatProps.v` — `ClassicalDedekindReals.sig_forall_dec`, `FunctionalExtensionality.functional_extensionality_dep`:
  C63_bounds, C63_fast.
* `KeepLatProps.v` — `ClassicalDedekindReals.sig_not_dec`, `Classical_Prop.classic`:
  C63_init, C63_rigid, C63_instant, C63_turn, C63_entity_ends_refuted, C63_other_refuted, C63_standing_refuted, C63_no_path_refuted, C63_heading_refuted.
* `KeepLatProps.v` — none (closed under the global context):
  C63_override_refuted.
* `KeepProps.v` — `ClassicalDedekindReals.sig_forall_dec`, `FunctionalExtensionality.functional_extensionality_dep`:
  C62_parse, C62_side, C62_requested.
* `KeepProps.v` — `ClassicalDedekindReals.sig_not_dec`:
  C62_rigid, C62_limits, C62_change, C62_jerk, C62_jerk_refuted, C62_settles, C62_arrives, C62_stays, C62_overridden, C62_collides_refuted, C62_swings_refuted, C62_restart_refuted, C62_speed_refuted, C62_no_route_refuted, C62_time_gap_refuted.
* `LaneProps.v` — none (closed under the global context):
  C27_move, C27_distance, C27_rank, C27_inverse, C27_antisymmetric, C27_additive, C27_range, C27_centre_refuted, C28_width, C28_records, C28_order, C28_road_type, C28_material, C28_material_refuted, C28_lane_offset, C28_no_lane_offset, C28_lane_offset_ahead_refuted, C28_lane_offset_order_refuted, C28_elevation, C28_elevation_near, C28_roll, C28_roll_near, C28_roll_refuted, C28_elevation_refuted, C28_elevation_order_refuted, C29_width, C29_missing, C29_lanes, C29_outer, C29_next, C29_first, C29_breadth, C29_centre, C29_disjoint, C29_ordered, C29_inside, C29_offset, C29_adjacent, C29_width_between, C29_width_between_refuted, C30_stored, C30_first_hint, C30_any_hint, C30_unique, C30_none, C30_at_start, C30_boundary_refuted, C31_to_end, C31_to_start, C31_further, C31_back, C31_intermediate_refuted, C36_closest, C36_filter, C36_distance, C36_round_trip, C36_lane_to_track, C36_force_lane, C45_inside, C45_ahead, C45_behind, C45_replacement, C45_offset_refuted, C46_none, C46_between, C46_last, C46_across, C46_bounds, C46_ahead_refuted, C46_no_width, C46_zero_width, C47_left, C47_right, C47_both, C47_outmost, C47_driving_lanes, C47_driving, C47_driving_sum, C47_empty, C48_polynomial, C48_scale_refuted, C48_total, C48_boundary.
* `LgtProps.v` — none (closed under the global context):
  C71_lights, C71_conflict, C71_state.
* `LgtProps.v` — `ClassicalDedekindReals.sig_not_dec`, `Classical_Prop.classic`:
  C71_starts, C71_type_refuted, C71_linear, C71_reached, C71_late, C71_off_refuted, C71_instant, C71_tiny_refuted, C71_unknown_refuted, C71_flash_forever, C71_flash_first, C71_flash_dark, C71_flash_phase, C71_flash_off, C71_flash_on, C71_flash_lit, C71_isolated, C71_types, C71_emission, C71_full, C71_emits, C71_clamped, C71_any_refuted, C71_min, C71_max, C71_colour, C71_bright_refuted, C71_init.
* `LgtProps.v` — `ClassicalDedekindReals.sig_forall_dec`:
  C71_stale_refuted, C71_resets.
* `LgtProps.v` — `ClassicalDedekindReals.sig_forall_dec`, `FunctionalExtensionality.functional_extensionality_dep`:
  C71_cmyk, C71_type_colour.
* `MoveProps.v` — none (closed under the global context):
  C52_moved, C52_one_link, C52_one_link_reversed, C52_total, C52_unique, C52_add_partial, C52_back_partial, C52_dead_end, C52_enter_road, C52_enter_junction, C52_direction, C52_distance, C52_distance_refuted, C52_angle, C52_angle_near_partial, C52_angle_tolerance_refuted, C52_route, C52_limit_refuted, C52_offset_repeated_refuted, C52_offset_sign_refuted, C52_gap_refuted, C52_bad_link_refuted, C52_error_moves_refuted, C52_centre_refuted, C52_end_status, C52_lane_index, C52_off_road_refuted.
* `NatProps.v` — `ClassicalDedekindReals.sig_forall_dec`, `FunctionalExtensionality.functional_extensionality_dep`:
  C59_closest, C59_seen, C59_freespace, C59_freespace_behind, C59_freespace_behind_refuted, C59_start_refuted, C59_late_refuted.
* `NatProps.v` — `ClassicalDedekindReals.sig_not_dec`:
  C59_gap, C59_free, C59_follow, C59_closer, C59_speed, C59_rates, C59_max, C59_max_refuted, C59_separate, C59_target, C59_abort, C59_over, C59_deaf_refuted, C59_standing_refuted, C59_route_refuted.
* `NatProps.v` — none (closed under the global context):
  C59_lanes_sound, C59_lanes_right, C59_lanes_left, C59_lanes_refuted.
* `NetProps.v` — none (closed under the global context):
  C49_enumerate, C49_links, C49_beyond, C49_roads, C49_connected, C49_connected_lane, C49_contact_refuted, C49_lane_ignored_refuted, C49_lane, C49_lane_first, C49_ends, C49_across, C49_across_found.
* `OffProps.v` — `ClassicalDedekindReals.sig_not_dec`, `Classical_Prop.classic`:
  C79_steering, C79_steering_range, C79_step, C79_factor_ignored, C79_keeps_refuted, C79_no_jump_to_reverse, C79_together, C79_speed_limit.
* `OffProps.v` — `ClassicalDedekindReals.sig_not_dec`:
  C79_throttle, C79_throttle_range, C79_throttle_monotone.
* `OffProps.v` — none (closed under the global context):
  C79_no_lead.
* `OffProps.v` — `ClassicalDedekindReals.sig_forall_dec`, `FunctionalExtensionality.functional_extensionality_dep`:
  C79_activate.
* `OffProps.v` — `ClassicalDedekindReals.sig_forall_dec`:
  C79_defaults.
* `OptProps.v` — none (closed under the global context):
  C26_reading, C26_parse, C26_own_values, C26_flag, C26_single, C26_multi, C26_write, C26_defaults, C26_no_default_option, C26_swallowed_refuted, C26_repeated_refuted, C26_unknown_value_refuted, C26_undeclared_refuted, C26_extra_refuted, C44_get, C44_value, C44_set, C44_set_flag, C44_latest, C44_early, C44_unset, C44_clear, C44_change, C44_reset, C44_reset_lists.
* `OvrProps.v` — `ClassicalDedekindReals.sig_not_dec`:
  C73_read_in_range, C73_rates, C73_rates_kept, C73_force, C73_gears_injective, C73_gear_kind, C73_read_all, C73_read_list, C73_start_safe, C73_read_exact, C73_read_rejects.
* `OvrProps.v` — `ClassicalDedekindReals.sig_forall_dec`, `FunctionalExtensionality.functional_extensionality_dep`:
  C73_range_nearest, C73_range_keeps, C73_range_idempotent, C73_range_rounds.
* `OvrProps.v` — none (closed under the global context):
  C73_domains, C73_domains_all_active, C73_off_claims_nothing, C73_unknown_quits, C73_copy_overrides, C73_copy_domains_refuted, C73_copy_never_conflicts, C73_start_bad, C73_start_sets, C73_latest, C73_own_place, C73_ghost, C73_restart_once, C73_one_step.
* `OvrProps.v` — `ClassicalDedekindReals.sig_forall_dec`:
  C73_domain_of_active_refuted, C73_order_refuted, C73_reported.
* `ParamProps.v` — none (closed under the global context):
  C11_restore, C11_restore_with_sets, C11_only_declarations_fail, C11_shadow, C11_outer_visible, C11_shadow_modified_refuted, C11_story_partial, C11_story_keeps_outer_partial, C11_story_refuted, C11_story_route_refuted, C12_set_get, C12_set_get_text, C12_text_of_typed, C12_success, C12_reject, C12_frame, C12_refines_map, C12_by_string, C12_by_string_frame, C12_by_string_unknown, C37_terminates, C37_substitution, C37_terminates_refuted.
* `PathProps.v` — none (closed under the global context):
  C33_start, C33_same, C33_unknown, C33_total, C33_route, C33_shortest_partial, C33_none_partial, C33_shortest_refuted, C33_null_refuted, C33_rounds_refuted, C33_twice_refuted, C33_sign_refuted, C33_lane_refuted.
* `PolyProps.v` — none (closed under the global context):
  C35_total, C35_empty, C35_end, C35_segment, C35_hint_partial, C35_vertex, C35_before, C35_ahead, C35_build, C35_add, C35_reset, C35_time_total_partial, C35_time_few, C35_time_prior, C35_time_past, C35_time_segment, C35_time_vertex, C35_time_range, C35_time_monotone_partial, C35_time_point, C35_time_relative, C35_angle_segment, C35_angle_none, C35_angle_corner, C35_angle_last, C35_angle_straight, C35_hint_refuted, C35_clamp_refuted, C35_time_total_refuted, C35_time_monotone_refuted, C35_time_start_refuted, C35_time_relative_refuted, C35_reset_refuted.
* `PoolProps.v` — none (closed under the global context):
  C75_init_undefined, C75_init_groups, C75_default_categories, C75_init_keys, C75_init_weight, C75_init_total, C75_category_names, C75_delete_order, C75_no_leak, C75_add_no_leak, C75_get_vehicle, C75_get_vehicle_first, C75_random_named, C75_random_defined, C75_random_interval, C75_zero_weight, C75_random_undefined, C75_add, C75_add_null, C75_added_drawn_refuted, C75_swarm_draws, C75_no_single_trailer_partial, C75_no_single_trailer_refuted, C75_unknown_category_refuted, C75_default_wanted, C75_swarm_wanted, C75_sumo_wanted, C75_traffic_weights.
* `ProfProps.v` — `ClassicalDedekindReals.sig_not_dec`:
  C61_position, C61_at_once, C61_follow_one, C61_follow_any, C61_follow_many, C61_follow_now, C61_ends_refuted, C61_line_refuted, C61_no_times_refuted, C61_three_refuted, C61_empty_refuted, C61_no_solution_refuted, C61_equal_refuted, C61_fallback_refuted, C61_relative_refuted, C61_copy_refuted.
* `ProfProps.v` — `ClassicalDedekindReals.sig_forall_dec`, `FunctionalExtensionality.functional_extensionality_dep`:
  C61_on_time, C61_step, C61_ends, C61_endless, C61_back.
* `RecProps.v` — none (closed under the global context):
  C18_context, C18_blocks, C18_only_changes, C17_replay, C17_tracked_plain, C17_sim_int, C17_sim_string, C17_sim_near, C17_queries, C17_file, C17_active_iff_alive, C17_colour_change_refuted, C17_stale_value_refuted, C17_empty_name_refuted, C17_no_dt_refuted, C17_empty_refuted, C16_unknown_packets, C16_unknown_first_refuted.
* `ReplayProps.v` — none (closed under the global context):
  C19_history_independent, C19_value_unique, C19_empty, C19_close_times_refuted, C19_binary_partial, C19_binary_past_end, C19_binary_refuted, C20_index_valid, C20_time_in_window, C20_window_change, C20_next_previous, C20_play_visits_frames, C20_play_after_jump_refuted, C20_nearest_refuted, C39_replace, C39_clean_subset, C39_clean_last, C39_clean_separates.
* `RouteProps.v` — none (closed under the global context):
  C34_place_partial, C34_outside_partial, C34_equal, C34_nearest, C34_in_range, C34_nowhere, C34_lookup, C34_roundtrip_partial, C34_moves_partial, C34_kept, C34_lost, C34_empty, C34_direction, C34_replace_partial, C34_replace_few, C34_second, C34_same_road, C34_other_road, C34_invalid, C34_no_way, C34_valid, C34_added_partial, C34_moves_refuted, C34_forward_refuted, C34_last_refuted, C34_past_refuted, C34_twice_refuted, C34_replace_length_refuted, C34_replace_same_refuted, C34_removed_refuted.
* `RtrProps.v` — none (closed under the global context):
  C60_path, C60_no_path, C60_valid, C60_ends, C60_ends_refuted, C60_any_queue, C60_intersections, C60_speed, C60_type_speed, C60_type_speed_refuted, C60_metres, C60_metres_refuted, C60_beside_refuted, C60_other_end_refuted, C60_other_end, C60_waypoints, C60_waypoints_empty.
* `SBProps.v` — none (closed under the global context):
  C01_notifications, C01_each_notification, C01_terminates, C01_start_rejected, C02_stop, C02_stop_trigger, C03_counter, C03_bound, C03_complete_iff, C03_unlimited, C03_fresh_count_refuted, C04_reachable, C04_skip_blocked, C04_skip_starts, C04_overwrite, C04_parallel, C04_others_unaffected, C04_terminates, C05_event, C05_run, C05_init_actions_refuted, C05_lamps.
* `SenProps.v` — `ClassicalDedekindReals.sig_not_dec`, `Classical_Prop.classic`:
  C70_somewhere, C70_view, C70_right_view, C70_mirror_refuted, C70_right_refuted, C70_here_refuted, C70_rate_refuted, C70_list, C70_overflow_refuted, C70_vertical_refuted, C70_fetch.
* `SenProps.v` — `ClassicalDedekindReals.sig_not_dec`:
  C70_domain, C70_local, C70_yaw, C70_rate.
* `SenProps.v` — none (closed under the global context):
  C70_fetch_bad.
* `SlopProps.v` — `ClassicalDedekindReals.sig_not_dec`:
  C76_defined, C76_speed_band, C76_not_sloppy, C76_smooth, C76_period_end, C76_set_speed_refuted, C76_not_negative, C76_reverse_refuted, C76_distance, C76_domains, C76_lateral_account, C76_lateral_step, C76_fuzz_range, C76_heading_refuted, C76_heading_added, C76_in_period, C76_turn, C76_fuzz_draw.
* `SlopProps.v` — `ClassicalDedekindReals.sig_forall_dec`, `FunctionalExtensionality.functional_extensionality_dep`:
  C76_half_lane_refuted, C76_activate.
* `StrProps.v` — none (closed under the global context):
  C21_total, C21_same_place, C21_canonical, C21_idempotent, C21_fixed, C21_complete, C22_join, C22_unique, C22_quoted, C22_quoted_refuted, C22_quoted_terminates, C22_csv, C22_csv_refuted, C40_dir_file, C40_file, C40_plain, C40_extension, C40_extension_refuted, C41_found, C41_not_found, C41_total, C41_paths, C41_absolute, C41_relative, C41_empty_directory.
* `SwmProps.v` — `ClassicalDedekindReals.sig_not_dec`:
  C66_ellipse, C66_meet, C66_near, C66_line, C66_line_refuted, C66_flat, C66_flat_refuted, C66_curve, C66_root_partial, C66_solution_partial.
* `SwmProps.v` — `ClassicalDedekindReals.sig_not_dec`, `Classical_Prop.classic`:
  C66_param, C66_tangent, C66_arc, C66_arc_refuted, C66_segments.
* `SwmProps.v` — `ClassicalDedekindReals.sig_forall_dec`, `FunctionalExtensionality.functional_extensionality_dep`:
  C66_cover, C66_none, C66_divisions, C66_lost_refuted, C66_root_refuted, C66_range, C66_guess.
* `SwpProps.v` — `ClassicalDedekindReals.sig_not_dec`:
  C67_fewer, C67_one_refuted, C67_despawn, C67_new, C67_spawn, C67_one_lane, C67_direction, C67_direction_refuted, C67_interval, C67_check, C67_controllers_refuted.
* `SwpProps.v` — none (closed under the global context):
  C67_negative_refuted, C67_sample, C67_junction.
* `SwpProps.v` — `ClassicalDedekindReals.sig_forall_dec`:
  C67_junction_refuted.
* `SynProps.v` — `ClassicalDedekindReals.sig_forall_dec`, `FunctionalExtensionality.functional_extensionality_dep`:
  C69_linear, C69_stop_now, C69_master, C69_copy_refuted, C69_far, C69_near_refuted.
* `SynProps.v` — `ClassicalDedekindReals.sig_not_dec`:
  C69_line, C69_together, C69_free, C69_early_refuted, C69_plan, C69_plan_equal, C69_first, C69_apex, C69_stop, C69_brake, C69_restart, C69_step, C69_end, C69_closer, C69_over, C69_wait, C69_steady, C69_steady_position_refuted, C69_negative_refuted.
* `SynProps.v` — `ClassicalDedekindReals.sig_forall_dec`:
  C69_start.
* `SynProps.v` — none (closed under the global context):
  C69_copy.
* `TrajProps.v` — none (closed under the global context):
  C50_polyline, C50_defined, C50_standstill, C50_follow, C50_position_partial, C50_past, C50_follow_place, C50_position_place_partial, C50_by_distance, C50_by_distance_past, C50_by_distance_between, C50_by_distance_index, C50_no_vertices, C50_direction, C50_mode, C50_stop_refuted, C50_single_refuted, C50_equal_times_refuted, C50_last_speed_refuted, C50_negative_speed_refuted, C50_stale_acceleration_refuted.
* `TransProps.v` — `ClassicalDedekindReals.sig_not_dec`:
  C53_curve, C53_endpoints, C53_derivative, C53_step_shape, C53_speed_limits, C53_speed_overridden, C53_speed_same, C53_speed_restart, C53_speed_restart_refuted, C53_speed_distance_refuted, C53_speed_divzero_refuted, C53_speed_zero_rate_refuted, C53_speed_step_shape_refuted, C53_speed_zero_step_refuted, C53_offset_start, C53_offset_acc, C53_scaled, C53_linear_extent.
* `TransProps.v` — `ClassicalDedekindReals.sig_not_dec`, `Classical_Prop.classic`:
  C53_between, C53_monotone, C53_not_early, C53_peak, C53_by_peak, C53_rate, C53_max_rate, C53_speed_start, C53_speed_follow, C53_speed_arrive, C53_speed_ends, C53_speed_distance, C53_speed_turn, C53_offset_step, C53_offset_run, C53_change_way, C53_change_distance, C53_change_between, C53_change_linear_partial, C53_change_jump_refuted.
* `TransProps.v` — `ClassicalDedekindReals.sig_forall_dec`, `FunctionalExtensionality.functional_extensionality_dep`:
  C53_step_add, C53_step_range, C53_relative_none.
* `TransProps.v` — `ClassicalDedekindReals.sig_forall_dec`:
  C53_relative.
* `TriProps.v` — `ClassicalDedekindReals.sig_forall_dec`, `FunctionalExtensionality.functional_extensionality_dep`:
  C65_orientation, C65_separated, C65_exact_partial, C65_yes, C65_corner, C65_order, C65_collide, C65_missed_refuted, C65_false_refuted, C65_flat_refuted.
* `TrjProps.v` — `ClassicalDedekindReals.sig_not_dec`:
  C72_forward, C72_back, C72_last, C72_back_lost_refuted, C72_back_forth_refuted, C72_closed, C72_closed_round_refuted, C72_relative, C72_absolute, C72_speed, C72_speed_absolute, C72_timed_last, C72_scale_refuted, C72_offset_speed_refuted, C72_long, C72_long_end_refuted, C72_lateral, C72_before, C72_takeover_refuted, C72_start, C72_start_explicit, C72_copy_offset_refuted, C72_standing, C72_heading.
* `TrjProps.v` — `ClassicalDedekindReals.sig_not_dec`, `Classical_Prop.classic`:
  C72_start_forward.
* `TrjProps.v` — `ClassicalDedekindReals.sig_forall_dec`:
  C72_copy.
* `TrjProps.v` — `ClassicalDedekindReals.sig_forall_dec`, `FunctionalExtensionality.functional_extensionality_dep`:
  C72_copy_closed_refuted, C72_clothoid, C72_clothoid_start_refuted, C72_spline, C72_too_early_refuted.
* `TrjProps.v` — none (closed under the global context):
  C72_interpolation.
* `UdpProps.v` — `ClassicalDedekindReals.sig_not_dec`, `Classical_Prop.classic`:
  C77_latest, C77_sync, C77_buffer, C77_short, C77_short_refuted, C77_state, C77_state_h, C77_reckon, C77_reckon_full_refuted, C77_quiet, C77_ignored, C77_ignored_refuted, C77_other_refuted, C77_driver, C77_driver_message, C77_speed_after_state_refuted, C77_unknown_mode, C77_empty, C77_empty_after.
* `UdpProps.v` — none (closed under the global context):
  C77_ports, C77_socket_kept, C77_port_beyond_refuted, C77_port_given_refuted, C77_port_range, C77_header, C77_fields.
* `UdpProps.v` — `ClassicalDedekindReals.sig_forall_dec`, `FunctionalExtensionality.functional_extensionality_dep`:
  C77_activate.
* `VehProps.v` — `ClassicalDedekindReals.sig_not_dec`, `Classical_Prop.classic`:
  C74_speed_limit, C74_wheel_limit, C74_wheel_at_speed, C74_wheel_at_speed_analog, C74_angles, C74_setup_kept, C74_no_jump_to_reverse, C74_stops, C74_stands, C74_drives_off_refuted, C74_pedal_lets_go, C74_brake_held_refuted, C74_brakes, C74_acceleration, C74_coasts, C74_coast_time_refuted, C74_target_approached, C74_target_reached_refuted, C74_disabled, C74_target_disabled_refuted, C74_aligns, C74_aligns_refuted, C74_distance, C74_velocity, C74_straight, C74_turns, C74_turns_side, C74_turn_limit, C74_heading_adds, C74_wheels_roll, C74_circle, C74_moved, C74_driven_within_limits, C74_limit_drop_refuted, C74_lateral_only, C74_longitudinal_only, C74_acc_and_steer, C74_key_steers, C74_wheel_steers, C74_target_steers, C74_both_domains.
* `VehProps.v` — `ClassicalDedekindReals.sig_forall_dec`, `FunctionalExtensionality.functional_extensionality_dep`:
  C74_throttle_query_refuted, C74_key_held_refuted, C74_activated, C74_limit.
* `VehProps.v` — none (closed under the global context):
  C74_steering_query, C74_keys, C74_keys_only.
<!-- assumptions:end -->
