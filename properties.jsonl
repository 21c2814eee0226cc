{"id": "C01", "title": "Storyboard state notifications follow the OpenSCENARIO life cycle", "statement": "For every storyboard (any tree shape, any triggers, any action durations), every state-change notification delivered to a registered callback / written to the state-change log moves the element along an edge of the OpenSCENARIO life cycle (init->standby, init->running, standby->running, running->standby, standby/running->complete), and reports a state different from the one previously reported for that element; the only other change an element undergoes is the silent re-arming of the descendants of a repeating event/maneuver group.", "quantifier": "all element trees, all trigger outcome sequences, all action completion schedules, all step counts", "why_tests_cant": "The transition set is a property of every reachable tree state; tests only drive a few hand written storyboards.", "anchors": ["EnvironmentSimulator/Modules/ScenarioEngine/SourceFiles/StoryboardElement.cpp: StoryBoardElement::Start, Step, EvalTriggers, Stop, End, SetState, Reset", "EnvironmentSimulator/Modules/ScenarioEngine/SourceFiles/Storyboard.cpp: StoryBoard::Step, Event::Start"]}
{"id": "C02", "title": "Stopping an element leaves nothing below it active", "statement": "When a stop trigger fires for a storyboard element, then after the call the element and every descendant of it is in a non-active state (neither standby nor running), whatever their states were before.", "quantifier": "all trees, all combinations of states in the tree", "why_tests_cant": "Needs all shapes/depths of trees and all combinations of child states.", "anchors": ["EnvironmentSimulator/Modules/ScenarioEngine/SourceFiles/StoryboardElement.cpp: StoryBoardElement::Stop, EvalTriggers"]}
{"id": "C03", "title": "maximumExecutionCount bounds executions", "statement": "An event (or maneuver group) with maximumExecutionCount = n > 0 is started at most n times while it is not re-armed from outside, and it enters complete exactly when its n-th execution ends; an element without limit never completes by ending.", "quantifier": "all n, all sequences of start/end/stop calls", "why_tests_cant": "Counting over unbounded histories.", "anchors": ["EnvironmentSimulator/Modules/ScenarioEngine/SourceFiles/StoryboardElement.cpp: StoryBoardElement::Start, End, Reset", "EnvironmentSimulator/Modules/ScenarioEngine/SourceFiles/StoryboardElement.hpp: num_executions_, max_num_executions_"]}
{"id": "C04", "title": "Event priority rules", "statement": "When an event's start trigger fires: with priority overwrite every other running event of the maneuver is ended and this event runs; with priority skip it starts iff no event of the maneuver is running; with priority parallel it starts and the other events are unaffected.", "quantifier": "all maneuvers (any number of events in any states), all priorities", "why_tests_cant": "All combinations of sibling event states.", "anchors": ["EnvironmentSimulator/Modules/ScenarioEngine/SourceFiles/Storyboard.cpp: Event::Start"]}
{"id": "C05", "title": "No two running private actions control the same domain of one object", "statement": "At every point of every execution, after an event has been started, no other running private action (init action or event action) that controls the same object has a control domain in common with a newly started action of the event.", "quantifier": "all objects, all sets of running actions, all domain masks", "why_tests_cant": "Combination of action sets and masks is unbounded.", "anchors": ["EnvironmentSimulator/Modules/ScenarioEngine/SourceFiles/Storyboard.cpp: Event::Start", "EnvironmentSimulator/Modules/ScenarioEngine/SourceFiles/Action.hpp: OSCPrivateAction domain masks", "EnvironmentSimulator/Modules/CommonMini/CommonMini.hpp: ControlDomainMasks"]}
{"id": "C06", "title": "Comparison rules are consistent", "statement": "For any two values, the rules lessThan/greaterOrEqual, greaterThan/lessOrEqual and equalTo/notEqualTo are exact complements, greaterOrEqual = greaterThan or equalTo, and exactly one of lessThan/equalTo/greaterThan holds (integers exactly, real numbers up to the documented tolerance); equalTo is reflexive and symmetric.", "quantifier": "all pairs of integers / rationals / strings / booleans", "why_tests_cant": "Infinite domain with a tolerance band; boundary cases easily missed.", "anchors": ["EnvironmentSimulator/Modules/ScenarioEngine/OSCTypeDefs/OSCCondition.cpp: EvaluateRule"]}
{"id": "C07", "title": "Edge detection fires exactly on edges", "statement": "For every sequence of raw condition outcomes, a condition with rising edge is reported true at step k iff the raw value is true at k and was false at the previous evaluation; falling and risingOrFalling symmetrically; edge none reports the raw value; the very first evaluation never reports an edge.", "quantifier": "all boolean histories of any length", "why_tests_cant": "Unbounded histories.", "anchors": ["EnvironmentSimulator/Modules/ScenarioEngine/OSCTypeDefs/OSCCondition.cpp: OSCCondition::Evaluate, CheckEdge"]}
{"id": "C08", "title": "Delayed condition reports the value of delay seconds ago", "statement": "For every non-decreasing sequence of evaluation times and raw values, a condition with delay d reports at time t the raw value that was in effect at time t-d (false if nothing had been registered by then).", "quantifier": "all evaluation time sequences, all outcome sequences, all delays", "why_tests_cant": "Unbounded history; index caching makes it history dependent.", "anchors": ["EnvironmentSimulator/Modules/ScenarioEngine/OSCTypeDefs/OSCCondition.cpp: ConditionDelay::RegisterValue, GetValueAtTime, ResetCurrentIndex, OSCCondition::Evaluate"]}
{"id": "C09", "title": "Trigger = OR of groups, group = AND of conditions", "statement": "A trigger with at least one group fires iff some group has all its conditions true; a group without conditions never fires; a trigger without groups yields its configured default. Evaluation never skips a condition with a delay (its history is complete).", "quantifier": "all triggers with any number of groups/conditions, all condition outcomes", "why_tests_cant": "Number of groups and conditions unbounded, short circuit interacts with state.", "anchors": ["EnvironmentSimulator/Modules/ScenarioEngine/OSCTypeDefs/OSCCondition.cpp: ConditionGroup::Evaluate, Trigger::Evaluate"]}
{"id": "C10", "title": "Triggering entities rule any / all", "statement": "An entity condition with rule any is true iff it is true for at least one triggering entity; with rule all iff it is true for every triggering entity.", "quantifier": "all lists of triggering entities and all per-entity outcomes", "why_tests_cant": "All lists and orderings of entities; stale loop variables only show in specific orderings.", "anchors": ["EnvironmentSimulator/Modules/ScenarioEngine/OSCTypeDefs/OSCCondition.cpp: EvalDone, TrigByReachPosition::CheckCondition, TrigByStandStill::CheckCondition, TrigByTraveledDistance::CheckCondition, ..."]}
{"id": "C11", "title": "Parameter scopes nest and restore", "statement": "Entering a catalog element / parameter scope and leaving it again restores exactly the parameter declarations visible before, for any nesting depth; inside the scope the innermost declaration of a name shadows outer ones.", "quantifier": "all sequences of balanced scope entries with arbitrary declarations", "why_tests_cant": "Unbounded nesting and shadowing combinations.", "anchors": ["EnvironmentSimulator/Modules/ScenarioEngine/SourceFiles/Parameters.cpp: Parameters::addParameterDeclarations, CreateRestorePoint, RestoreParameterDeclarations, getParameterEntry"]}
{"id": "C12", "title": "Typed parameter/variable set-get round trip", "statement": "A successful typed set is returned by the next typed get of the same name, does not change any other parameter, is rejected with -1 and no effect when the name is unknown or the type differs.", "quantifier": "all declaration lists, all names, all values, all sequences of sets", "why_tests_cant": "Unbounded state; frame condition over all other names.", "anchors": ["EnvironmentSimulator/Modules/ScenarioEngine/SourceFiles/Parameters.cpp: setParameterValueInt, setParameterValueDouble, setParameterValueString, setParameterValueBool, getParameterValueInt, ..."]}
{"id": "C13", "title": "Parameter distribution enumerates every combination exactly once", "statement": "Running through permutation indices 0..n-1 yields every combination of one value (set) per distribution exactly once, n being the reported number of permutations, and the same index always yields the same combination.", "quantifier": "all numbers of distributions and all list lengths", "why_tests_cant": "Combinatorially unbounded.", "anchors": ["EnvironmentSimulator/Modules/ScenarioEngine/OSCTypeDefs/OSCParameterDistribution.cpp: GetNumPermutations, GetParameterEntry, GetNumParameters"]}
{"id": "C14", "title": "Permutation index never leaves its range", "statement": "For every sequence of load/set/increment/request calls the current permutation index is always below the reported number of permutations or undefined, and an out-of-range request is rejected without effect.", "quantifier": "all call sequences", "why_tests_cant": "Call histories.", "anchors": ["EnvironmentSimulator/Modules/ScenarioEngine/OSCTypeDefs/OSCParameterDistribution.cpp: SetIndex, IncrementIndex, SetRequestedIndex, GetIndex"]}
{"id": "C15", "title": "Recording file round trip", "statement": "Every packet sequence written to a recording is read back identically: same packets in the same order with the same payloads, for all payload contents including strings and vectors; header strings likewise.", "quantifier": "all packet sequences and payload bytes", "why_tests_cant": "All byte contents and lengths.", "anchors": ["EnvironmentSimulator/Modules/ScenarioEngine/SourceFiles/PacketHandler.hpp: DatWriter::Write, DatReader::ReadPacket, ReadStringPacket, ReadVectorPacket", "EnvironmentSimulator/Modules/ScenarioEngine/SourceFiles/PacketHandler.cpp: DatWriter::Init, DatReader::FillDatHeader"]}
{"id": "C16", "title": "Recording reader is robust to unknown packets", "statement": "A reader that meets packets of unknown id, or payloads longer than it knows, skips them and reads all remaining packets exactly as if those packets were absent.", "quantifier": "all files with arbitrary unknown packets interleaved", "why_tests_cant": "All interleavings and payload lengths.", "anchors": ["EnvironmentSimulator/Modules/ScenarioEngine/SourceFiles/PacketHandler.hpp: ReadPacket, CheckPacketVersion", "EnvironmentSimulator/Applications/replayer/Replay.cpp: Replay::ParsePackets"]}
{"id": "C17", "title": "Delta-compressed recording reproduces every object state", "statement": "For every simulation history (objects appearing, changing, disappearing), replaying the recording gives, at every recorded time stamp and for every object alive then, each recorded field within the documented tolerance of the value the object had at that time, and exactly the objects alive then.", "quantifier": "all histories of any length with any number of objects and fields", "why_tests_cant": "Histories are unbounded, the delta cache makes every record depend on the whole past.", "anchors": ["EnvironmentSimulator/Modules/ScenarioEngine/SourceFiles/PacketHandler.cpp: DatWriter::WriteObjectStatesToDat, CheckDeletedObjects, SetTimestampWritten, SetObjectIdWritten", "EnvironmentSimulator/Applications/replayer/Replay.cpp: ParsePackets"]}
{"id": "C18", "title": "Every object packet is preceded by its time stamp and object id", "statement": "In every file produced by the recorder, every object property packet is preceded by a time stamp packet of its step and the object id packet of its object, with no other object's id in between; time stamps are emitted at most once per step.", "quantifier": "all sequences of writer calls", "why_tests_cant": "Depends on flag interplay across arbitrary call sequences.", "anchors": ["EnvironmentSimulator/Modules/ScenarioEngine/SourceFiles/PacketHandler.hpp: DatWriter::Write, WritePacket"]}
{"id": "C19", "title": "Replay lookup is history independent", "statement": "Looking up a recorded property at a time returns the latest recorded value not later than that time (the first value if the time precedes all), regardless of which lookups were made before.", "quantifier": "all strictly increasing time lines, all query sequences (forward/backward jumps)", "why_tests_cant": "Cached index makes result potentially depend on the query history.", "anchors": ["EnvironmentSimulator/Applications/replayer/Replay.hpp: Timeline::get_value_incremental, get_value_binary, get_index_binary"]}
{"id": "C20", "title": "Replay navigation stays inside the selected window", "statement": "For every sequence of go-to-time / delta / next / previous / start / end requests the current frame index is valid and its time lies inside the [start, stop] window; next followed by previous returns to the same frame when strictly inside.", "quantifier": "all recordings, all navigation sequences, all windows", "why_tests_cant": "Navigation histories.", "anchors": ["EnvironmentSimulator/Applications/replayer/Replay.cpp: GoToTime, GoToDeltaTime, GoToNextFrame, GoToPreviousFrame, GoToStart, GoToEnd, SetStartTime, SetStopTime, FindIndexAtTimestamp"]}
{"id": "C21", "title": "Path normalisation is idempotent and canonical", "statement": "Normalising a path removes all '.', empty and backslash components, resolves '..' against preceding names, never lets an absolute path escape its root, yields '.' for an empty result, and normalising twice equals normalising once.", "quantifier": "all strings", "why_tests_cant": "All strings.", "anchors": ["EnvironmentSimulator/Modules/CommonMini/CommonMini.cpp: LexicallyNormalizePath"]}
{"id": "C22", "title": "Split and join are inverse", "statement": "Splitting a non-empty string at a delimiter and joining the parts with the delimiter gives the original string back; no part contains the delimiter.", "quantifier": "all strings, all delimiters", "why_tests_cant": "All strings.", "anchors": ["EnvironmentSimulator/Modules/CommonMini/CommonMini.cpp: SplitString"]}
{"id": "C23", "title": "Angle normalisation", "statement": "Normalising an angle yields a value in [0, 2pi) (resp. [-pi, pi]) congruent to the input modulo 2pi; the signed angle difference lies in [-pi, pi], is congruent to a-b, and the absolute difference lies in [0, pi].", "quantifier": "all real angles", "why_tests_cant": "Continuum of inputs; boundary behaviour.", "anchors": ["EnvironmentSimulator/Modules/CommonMini/CommonMini.cpp: GetAngleInInterval2PI, GetAngleInIntervalMinusPIPlusPI, GetAngleDifference, GetAbsAngleDifference, GetAngleSum"]}
{"id": "C24", "title": "Rotation and inverse rotation cancel", "statement": "Rotating a vector by heading/pitch/roll and applying the inverse rotation returns the vector; rotations preserve length; 2D rotation composes additively.", "quantifier": "all real angles and vectors", "why_tests_cant": "Continuum.", "anchors": ["EnvironmentSimulator/Modules/CommonMini/CommonMini.cpp: RotateVec3d, InverseRotateVec3d, RotateVec2D, Global2LocalCoordinates, Local2GlobalCoordinates"]}
{"id": "C25", "title": "Matrix inversion", "statement": "When the 3x3 inversion reports success the product with the input is the identity; every invertible matrix is inverted successfully.", "quantifier": "all 3x3 real matrices", "why_tests_cant": "Continuum.", "anchors": ["EnvironmentSimulator/Modules/CommonMini/CommonMini.cpp: InvertMatrix3"]}
{"id": "C26", "title": "Command line parsing", "statement": "Parsing an argument vector sets exactly the options present, each with its own value, independently of unrelated arguments; single-value options keep the last value; unknown arguments are reported and change nothing.", "quantifier": "all argument vectors, all option tables", "why_tests_cant": "All argument orders and repetitions.", "anchors": ["EnvironmentSimulator/Modules/CommonMini/CommonMini.cpp: SE_Options::ParseArgs, GetOptionArg, SetOptionValue, UnsetOption"]}
{"id": "C27", "title": "Lane id arithmetic skips the centre lane", "statement": "Moving n lanes from a driving lane and measuring the lane distance are inverse operations; no relative lane move from a non-zero lane ever lands on the centre lane 0; lane distance is antisymmetric.", "quantifier": "all lane ids and offsets", "why_tests_cant": "All integers.", "anchors": ["EnvironmentSimulator/Modules/RoadManager/RoadManager.cpp: GetRelativeLaneId, GetLaneIdDelta"]}
{"id": "C28", "title": "Records by s coordinate", "statement": "Lane width, lane offset, elevation, speed and road type lookups use the record with the greatest start not beyond s (the first record if s precedes all), for any insertion order of the records.", "quantifier": "all record lists, all insertion orders, all s", "why_tests_cant": "All lists and orders.", "anchors": ["EnvironmentSimulator/Modules/RoadManager/RoadManager.cpp: Lane::GetWidthByS, Lane::AddLaneWidth, Road::GetLaneOffset, Road::GetSpeedByS, Road::GetZAndPitchByS"]}
{"id": "C29", "title": "Lane boundaries are consistent", "statement": "At any s, the outer boundary of a lane is the sum of widths from the centre, equals the inner boundary of the next lane out, the centre is midway, lanes do not overlap when widths are non-negative, and lateral offsets between lanes are antisymmetric and additive.", "quantifier": "all lane sections with contiguous lanes, all widths, all s", "why_tests_cant": "All lane counts and widths.", "anchors": ["EnvironmentSimulator/Modules/RoadManager/RoadManager.cpp: LaneSection::GetOuterOffset, GetInnerOffset, GetCenterOffset, GetOffsetBetweenLanes, AddLane"]}
{"id": "C30", "title": "Lane section lookup does not depend on the search hint", "statement": "The lane section found for an s value is the one containing s, whatever section index the search starts from.", "quantifier": "all roads, all s, all hints", "why_tests_cant": "Boundary cases times hints.", "anchors": ["EnvironmentSimulator/Modules/RoadManager/RoadManager.cpp: Road::GetLaneSectionIdxByS"]}
{"id": "C31", "title": "Lane tracing through lane sections", "statement": "The lane id obtained by tracing a lane along the road from s1 to s2 is the composition of the lane links of exactly the section boundaries between s1 and s2.", "quantifier": "all roads, all lanes, all s1 and s2", "why_tests_cant": "All section layouts.", "anchors": ["EnvironmentSimulator/Modules/RoadManager/RoadManager.cpp: Road::GetConnectedLaneIdAtS"]}
{"id": "C32", "title": "Unique numeric road ids", "statement": "After loading, all roads have distinct ids, numeric ids are kept unless used twice, and looking up an id string returns the id assigned to it.", "quantifier": "all lists of id strings", "why_tests_cant": "All id lists incl. collisions and the maximal id.", "anchors": ["EnvironmentSimulator/Modules/RoadManager/RoadManager.cpp: OpenDrive::EstablishUniqueIds, LookupIdFromStr"]}
{"id": "C33", "title": "Shortest route distance", "statement": "The road network distance reported between two positions is the length of a shortest connecting path, with a sign telling the direction.", "quantifier": "all road networks and positions", "why_tests_cant": "All graphs.", "anchors": ["EnvironmentSimulator/Modules/RoadManager/RoadManager.cpp: RoadPath::Calculate, CheckRoad"]}
{"id": "C34", "title": "Route position by path length", "statement": "Moving a route position by d1 then d2 is the same as moving by d1+d2; the position for path length s lies on the road of the waypoint segment containing s at the corresponding distance; positions beyond the route are reported as end of route and no waypoint outside the route is accessed.", "quantifier": "all routes, all s", "why_tests_cant": "All waypoint lists and directions.", "anchors": ["EnvironmentSimulator/Modules/RoadManager/RoadManager.cpp: Route::SetPathS, MovePathDS, SetTrackS"]}
{"id": "C35", "title": "Trajectory evaluation", "statement": "Evaluating a polyline trajectory at s interpolates between the two vertices enclosing s, clamps outside, and gives the same result for every search start index; time to distance lookup is monotone and exact at vertices.", "quantifier": "all vertex lists, all s, all start indices", "why_tests_cant": "All vertex lists and hints.", "anchors": ["EnvironmentSimulator/Modules/RoadManager/RoadManager.cpp: PolyLineBase::Evaluate, EvaluateSegmentByLocalS, Time2S, AddVertex"]}
{"id": "C36", "title": "Closest lane selection", "statement": "Mapping a lateral position to a lane selects, among lanes of the requested type/side/width, the lane containing the position if there is one, else a lane with minimal distance to its centre; converting lane position to lateral position and back is the identity inside a lane.", "quantifier": "all lane sections and lateral positions", "why_tests_cant": "Continuum and all lane layouts.", "anchors": ["EnvironmentSimulator/Modules/RoadManager/RoadManager.cpp: LaneSection::GetClosestLaneIdx, Position::Lane2Track, Position::Track2Lane"]}
{"id": "C37", "title": "Parameter references in strings are substituted", "statement": "Resolving a string with parameter references terminates and replaces every reference by the value of the parameter it names, leaving all other text unchanged; a reference to an unknown parameter is an error.", "quantifier": "all strings, all parameter sets and values", "why_tests_cant": "The replacement loop rescans the whole string after each replacement, so its termination and result depend on every combination of values and texts.", "anchors": ["EnvironmentSimulator/Modules/ScenarioEngine/SourceFiles/Parameters.cpp: ResolveParametersInString"]}
{"id": "C38", "title": "Distribution contents match the loaded file", "statement": "Loading a parameter distribution makes exactly the distributions of that file available; a range distribution contains exactly the values lower, lower+step, ... up to the upper limit and reading it always terminates.", "quantifier": "all files, all range limits and step widths, all call histories before loading", "why_tests_cant": "Range contents depend on all combinations of limits and step; loading depends on the history of previous loads.", "anchors": ["EnvironmentSimulator/Modules/ScenarioEngine/OSCTypeDefs/OSCParameterDistribution.cpp: Load, Reset"]}
{"id": "C39", "title": "Stitching of restarted recordings keeps time lines ordered and free of duplicates", "statement": "Replacing the recorded data between two times keeps everything before and after, replaces exactly what lies between, and removing duplicates keeps only recorded values, keeps the latest, and leaves no two neighbouring entries within the time tolerance.", "quantifier": "all ordered time lines, all replacement intervals and data", "why_tests_cant": "All positions of the interval relative to the entries, all runs of near duplicates.", "anchors": ["EnvironmentSimulator/Applications/replayer/Replay.hpp: Timeline::replace_data_between_times, clean_duplicate_timestamps"]}
{"id": "C40", "title": "File name decomposition", "statement": "Directory name, separator and file name concatenate to the path; the file name contains no separator; file name without extension followed by the extension is the file name.", "quantifier": "all strings", "why_tests_cant": "All strings, including dots and separators in any order.", "anchors": ["EnvironmentSimulator/Modules/CommonMini/CommonMini.cpp: DirNameOf, FileNameOf, FileNameExtOf, FileNameWithoutExtOf, FilePathWithoutExtOf"]}
{"id": "C41", "title": "File search order", "statement": "A file is located at the first existing place among: the given path, its bare file name, then each search directory combined with both (environment directories before the caller's); otherwise the given path is returned unchanged and reported as not found; relative names resolve below the directory, absolute ones are not rebased; search directories are never duplicated or lost.", "quantifier": "all file systems, all file names, all directory lists", "why_tests_cant": "All file systems and lists.", "anchors": ["EnvironmentSimulator/Modules/CommonMini/CommonMini.cpp: LocateFile, CombineDirectoryPathAndFilepath, SE_Env::AddPath"]}
{"id": "C42", "title": "Composition of orientations", "statement": "The heading, pitch and roll computed for two orientations applied in sequence (or for a z-y-z sequence) describe the product rotation and lie in [0,2pi); the angles computed relative to a road, applied on top of the road orientation, give back the absolute orientation.", "quantifier": "all real angles", "why_tests_cant": "Continuum of orientations including the neighbourhood of the singularities.", "anchors": ["EnvironmentSimulator/Modules/CommonMini/CommonMini.cpp: R0R12EulerAngles, ZYZ2EulerAngles, CalcRelAnglesFromRoadAndAbsAngles"]}
{"id": "C43", "title": "Plane geometry", "statement": "Line intersection returns the unique common point; line/circle intersections are exactly the points found; projecting on a line gives the foot of the perpendicular; the distance to a segment or line is the minimum over its points and is attained at the returned point; signed distances agree with the side; angles between vectors turn one direction into the other; offset lines are parallel at the given distance.", "quantifier": "all real coordinates", "why_tests_cant": "Continuum of inputs; degenerate configurations at tolerances.", "anchors": ["EnvironmentSimulator/Modules/CommonMini/CommonMini.cpp: GetIntersectionOfTwoLineSegments, GetIntersectionsOfLineAndCircle, PointInBetweenVectorEndpoints, DistanceFromPointToEdge2D, ProjectPointOnLine2D, PointToLineDistance2DSigned, ProjectPointOnVector2DSignedLength, GetSignedAngleBetweenVectors, OffsetVec2D"]}
{"id": "C44", "title": "Option interface", "statement": "Setting an option through the interface makes exactly that option set with the given value first, keeps or drops earlier values as requested, survives a later declaration by the application, and leaves all other options unchanged; unset and clear undo it; a reset keeps exactly the persistent options.", "quantifier": "all option tables, all names and values", "why_tests_cant": "All sequences of declaration, setting and reset.", "anchors": ["EnvironmentSimulator/Modules/CommonMini/CommonMini.cpp: SE_Options::AddOption, SetOptionValue, UnsetOption, ClearOption, ChangeOptionArg, Reset, GetOptionValue"]}
{"id": "C45", "title": "Following a lane along a road", "statement": "A vehicle moved along a road from section i at lane l to an s value stays in its lane inside the section, follows the successor (predecessor) links of exactly the section boundaries it passes, and when the linked lane does not exist or has an unsuitable type it is put into the suitable lane closest to the one it left and this is reported.", "quantifier": "all roads, sections, lanes, lane type masks and s", "why_tests_cant": "All section layouts, links and lane types.", "anchors": ["EnvironmentSimulator/Modules/RoadManager/RoadManager.cpp: Road::GetLaneInfoByS"]}
{"id": "C46", "title": "Lane height interpolation", "statement": "The height of a lane is the bilinear interpolation of the inner and outer heights of the enclosing entries, stays within them, is constant after the last entry, is zero without entries and is defined for every lane.", "quantifier": "all entry lists, s and lateral offsets", "why_tests_cant": "Continuum of positions and all entry lists.", "anchors": ["EnvironmentSimulator/Modules/RoadManager/RoadManager.cpp: Lane::GetHeightBySAndOffset"]}
{"id": "C47", "title": "Road width by lane type", "statement": "The width of a road side is the summed width of all lanes from the reference line to the outmost lane of a requested type, the full width is the sum of both sides, and the number of driving lanes is counted in the section containing s.", "quantifier": "all roads, s and lane type masks", "why_tests_cant": "All lane layouts.", "anchors": ["EnvironmentSimulator/Modules/RoadManager/RoadManager.cpp: Road::GetWidth, Road::GetNumberOfDrivingLanesSide"]}
{"id": "C48", "title": "Reported slopes are the derivatives", "statement": "The slope reported for a cubic record is the derivative of its value, and the lateral slope of a lane boundary (centre) is the derivative of its lateral position.", "quantifier": "all polynomials, lanes and s", "why_tests_cant": "A limit statement over a continuum.", "anchors": ["EnvironmentSimulator/Modules/RoadManager/RoadManager.cpp: Polynomial::EvaluatePrim, Polynomial::EvaluatePrimPrim, LaneSection::GetTotalLaneWidthPrim"]}
{"id": "C49", "title": "Junction connections and connecting lanes", "statement": "The connections of a road or lane through a junction are enumerated completely, in file order and without repetition by index; the lane a lane continues in on a connected road is the one given by the lane link or by the first matching junction lane link; two roads are reported as directly connected exactly if leaving the one leads onto the other, with the end at which it is entered; the road at the other end of a connecting road is found.", "quantifier": "all networks, junctions, roads, lanes and indices", "why_tests_cant": "All link and connection tables.", "anchors": ["EnvironmentSimulator/Modules/RoadManager/RoadManager.cpp: Junction::GetNumberOfRoadConnections, GetRoadConnectionByIdx, GetNoConnectionsFromRoadId, GetConnectingRoadIdFromIncomingRoadId, GetRoadAtOtherEndOfConnectingRoad; Road::GetConnectingLaneId, IsDirectlyConnected"]}
{"id": "C50", "title": "Timing of polyline trajectories", "statement": "An object following a timed polyline is at the place of each vertex at the time of that vertex, and never moves backwards along it: in mode position with constant speed on every segment, in mode follow with constant acceleration and with the speed at the end of a segment being the one at the start of the next, from the initial speed and without negative speeds. Vertices told twice at the same place mean a stop. The polyline has the places of the vertices, distances added up, headings and pitches along the segments where the vertices do not tell them.", "quantifier": "all vertex lists, initial speeds, times and both following modes", "why_tests_cant": "All vertex lists, times and speeds.", "anchors": ["EnvironmentSimulator/Modules/RoadManager/RoadManager.cpp: PolyLineShape::CalculatePolyLine, PolyLineShape::Evaluate"]}
{"id": "C51", "title": "Filter of trajectory vertices", "statement": "The filter of trajectory vertices keeps first and last vertex, does not make up times or places, keeps the order, leaves out only vertices close to the one kept before in place and heading, replaces a stay of more than a second near one place by a stop at that place until the stay ends, and leaves lists of vertices that are apart unchanged; no vertex outside the list is accessed.", "quantifier": "all vertex lists and filter radii", "why_tests_cant": "All vertex lists; the filter works in place with three indices.", "anchors": ["EnvironmentSimulator/Modules/RoadManager/RoadManager.cpp: PolyLineShape::FinalizeVertices, VerticesUnique"]}
{"id": "C52", "title": "Moving along the road network", "statement": "Moving a position by a distance ends on the road and at the coordinate reached by going that distance along the road links; two moves in the same direction equal one by the sum, moving back returns to the start; lane, side and heading follow the lane links; at the end of the roads the position stops at the end and this is reported; no null pointer is dereferenced.", "quantifier": "all networks, positions, distances, direction modes and junction choices", "why_tests_cant": "Every network topology, lane layout, contact point combination and distance is a different case.", "anchors": ["EnvironmentSimulator/Modules/RoadManager/RoadManager.cpp: Position::MoveAlongS, MoveToConnectingRoad, SetLanePosMode, DistanceToDS"]}
{"id": "C53", "title": "Speed, lane offset and lane change transitions", "statement": "A transition goes monotonically from its start to its target along the shape asked for, its reported rate is the derivative of its value and its peak rate is what the limits are checked against; a speed action follows it whatever the step sizes, keeps the acceleration limits of the object, arrives at exactly the target speed and ends, and covers the distance asked for; starting it again repeats it; a lane offset action keeps the lateral acceleration limit and ends at the target; a lane change moves by exactly the way of the step.", "quantifier": "all shapes, dimensions, start and target values, limits, and all sequences of step sizes", "why_tests_cant": "Values, limits and step sizes are real numbers in unbounded sequences; derivative and maximum are statements about all points of a curve.", "anchors": ["EnvironmentSimulator/Modules/ScenarioEngine/OSCTypeDefs/OSCPrivateAction.cpp: TransitionDynamics, LongSpeedAction::Start, LongSpeedAction::Step, LatLaneOffsetAction::Start, LatLaneOffsetAction::Step, LatLaneChangeAction::Step"]}
{"id": "C54", "title": "Controllers: activation per domain and assignment", "statement": "A controller becomes active or inactive exactly on the domains asked for where it can operate and never elsewhere, whatever the sequence of assignments, removals and actions; a controller is assigned at most once to an object, the last assigned is the default choice; the queries of an object about active controllers, their modes and types say what holds; removal deactivates and unlinks; on an object at most one controller is active per domain; no null pointer, deleted controller or invalidated reference is used.", "quantifier": "all controllers, objects, activation requests, OpenSCENARIO versions and sequences of operations", "why_tests_cant": "The states are all combinations of active domains over any number of controllers and objects, reached by unbounded sequences of operations.", "anchors": ["EnvironmentSimulator/Modules/Controllers/Controller.cpp: Controller::Activate, DeactivateDomains", "EnvironmentSimulator/Modules/ScenarioEngine/SourceFiles/Entities.cpp: Object::AssignController, UnassignController, IsControllerActiveOnDomains, GetControllerActiveOnDomain", "EnvironmentSimulator/Modules/ScenarioEngine/OSCTypeDefs/OSCPrivateAction.cpp: AssignControllerAction::Start, ActivateControllerAction::Start", "EnvironmentSimulator/Libraries/esminiLib/esminiLib.cpp: SE_DeleteObject"]}
{"id": "C55", "title": "Entities: lists of objects, ids and trailers", "statement": "Whatever the sequence of creating, adding, activating, deactivating, connecting, disconnecting and removing, every object in the entities is in exactly one of the active list and the pool, once, marked accordingly, with an id no other object has or will get, and its trailer is in the lists too; vehicles take all their trailers along; searches by id and name find exactly the object meant; connecting makes tow and trailer know each other; a copied vehicle tows copies of the trailers and leaves the original alone; no deleted object is used.", "quantifier": "all worlds of objects, hitches and couplers, all trailer chains and all sequences of operations", "why_tests_cant": "The chains of trailers have any length, the order of operations is unbounded, and the faults are uses of deleted objects that only show later.", "anchors": ["EnvironmentSimulator/Modules/ScenarioEngine/SourceFiles/Entities.cpp: Entities::addObject, activateObject, deactivateObject, removeObject, GetObjectById, GetObjectByName, nameExists, indexExists", "EnvironmentSimulator/Modules/ScenarioEngine/SourceFiles/Entities.cpp: Vehicle::Vehicle(const Vehicle&), ConnectTrailer, DisconnectTrailer, Object::TrailerVehicle, TowVehicle", "EnvironmentSimulator/Modules/ScenarioEngine/OSCTypeDefs/OSCPrivateAction.cpp: ConnectTrailerAction::Start, DisconnectTrailerAction::Start"]}
{"id": "C56", "title": "Bounding boxes: overlap and free space distance", "statement": "The free space distance of two objects is the least distance of any two points of their turned and shifted bounding boxes, zero exactly when they overlap (up to the tolerance), the same from either side; the lateral and longitudinal distances are the signed gaps to the left of and ahead of the first object; a collision is reported exactly for boxes that overlap and are at about the same height; the distance to a point is the least and comes with its components.", "quantifier": "all positions, headings, sizes and centre offsets of two boxes, all points", "why_tests_cant": "Positions, headings and sizes are real numbers; that looking at four axes and at corners against edges is enough holds only by a geometric argument over all of them.", "anchors": ["EnvironmentSimulator/Modules/ScenarioEngine/SourceFiles/Entities.cpp: Object::CollisionAndRelativeDistLatLong, PointCollision, FreeSpaceDistance, FreeSpaceDistancePoint", "EnvironmentSimulator/Modules/ScenarioEngine/SourceFiles/Entities.hpp: Object::Collision", "EnvironmentSimulator/Modules/CommonMini/CommonMini.cpp: DistanceFromPointToEdge2D, RotateVec2D"]}
{"id": "C57", "title": "Distances of vehicles with trailers, time headway and time to collision", "statement": "The free space distance of two vehicles is the least over all parts of both road trains, found from whichever part is asked, with the sign of being ahead or behind; along and across the road it is that of the nearest corners, zero where the vehicles are beside each other; without free space it is that of the reference points in the coordinates asked for; a result is reported only if it was computed; the time headway is distance over speed, the time to collision is the time after which two vehicles driving along one line meet.", "quantifier": "all vehicles, trailers, boxes, roads, trajectories, coordinate systems, kinds of distance, speeds", "why_tests_cant": "Six kinds of distance in five coordinate systems over arbitrarily long road trains of arbitrary boxes; results over real numbers and unset results only show for particular combinations.", "anchors": ["EnvironmentSimulator/Modules/ScenarioEngine/SourceFiles/Entities.cpp: Object::Distance, FreeSpaceDistancePointRoadLane, FreeSpaceDistanceObjectRoadLane, TimeHeadway, TimeToCollision", "EnvironmentSimulator/Modules/RoadManager/RoadManager.cpp: Position::Distance"]}
{"id": "C58", "title": "Cached distances between objects", "statement": "The distance of two objects asked for from the scenario engine is the one between these two objects, never of another pair; with return value 0 it is measured now; otherwise the value was measured by an earlier query of the same kind, not more than three seconds ago, unless the objects are more than 500 metres apart, and never across a teleport; inactive objects have no distance and leave nothing behind.", "quantifier": "all sequences of queries of all pairs of objects, kinds, limits and times in all states of the scenario", "why_tests_cant": "The value returned depends on the whole history of queries of both directions and all kinds of distance; the keys of all pairs of ids must not meet.", "anchors": ["EnvironmentSimulator/Modules/ScenarioEngine/SourceFiles/ScenarioEngine.cpp: ScenarioEngine::GetDistance, UpdateDistance", "EnvironmentSimulator/Modules/ScenarioEngine/SourceFiles/ScenarioEngine.hpp: GenerateKey, DistanceEntry"]}
{"id": "C59", "title": "Natural driver: vehicles of interest, acceleration, speed and lane changes", "statement": "The vehicles a natural driver reacts to are the nearest ahead and behind in the own and the neighbouring lanes among those in range; the acceleration never exceeds the limits, tends to the desired speed on a free road, is less the closer the vehicle ahead and not positive within the gap wanted; the speed stays between 0 and the desired speed; lane changes go only to driving lanes next to the own where nobody has to brake harder than allowed and for a gain, are given up if a vehicle ahead goes to the same lane, and are separated by more than duration and delay.", "quantifier": "all parameters, scenes, vehicles, roads and sequences of steps", "why_tests_cant": "The decisions depend on distances, speeds and lanes of any number of vehicles and on the history of the driver; the bounds are over real numbers and runs of any length.", "anchors": ["EnvironmentSimulator/Modules/Controllers/ControllerNaturalDriver.cpp: Step, GetAcceleration, GetDesiredGap, EstimateFreespace, UpdateSurroundingVehicles, FilterSurroundingVehicles, FindClosestAhead, FindClosestBehind, CheckLaneChangePossible, AbortLaneChange, AdjacentLanesAvailable", "EnvironmentSimulator/Modules/RoadManager/RoadManager.cpp: LaneSection::GetNumberOfDrivingLanesSide, GetNUmberOfLanesLeft, GetNUmberOfLanesRight, GetLaneIdxById"]}
{"id": "C60", "title": "Lane independent router: the path found is the best one, and its waypoints can be driven to", "statement": "A path returned by the lane independent router leads from the start to the target lane, each road joined to the one before by a lane of the side driven on; its weight is the cost of its legs by the strategy (length, time, intersections) and no way through the network costs less. No path is returned exactly if a position is not valid, both are in the same lane of one road, or no way exists; the search ends on every network and never compares the start node. The waypoints are one per road, in the lane the road is left from where that lane can be driven on, headed for the end left at, the first not behind the start and the last the target.", "quantifier": "all road networks (any roads, links, junctions, cycles), positions, strategies and orders of equal nodes in the queue", "why_tests_cant": "Optimality compares with all ways of any length through any network, termination with cycles needs an argument over all runs of the search, and absence of a way cannot be sampled.", "anchors": ["EnvironmentSimulator/Modules/RoadManager/LaneIndependentRouter.cpp: GetNextNodes, GetNextRoads, GetNextLink, GetConnectingLanes, CreateTargetNode, FindGoal, IsPositionValid, CreateStartNode, CalculatePath, GetWaypoints, CalcAverageSpeed, CalcWeightWithPos, CalcWeight", "EnvironmentSimulator/Modules/RoadManager/LaneIndependentRouter.hpp: Node::operator==, WeightCompare"]}
{"id": "C61", "title": "Speed profile: the planned speed is continuous, within the limits, and reaches its targets", "statement": "In position mode a speed profile consists of straight lines from the speed of the object to the speed of each entry, in the time given or the shortest the allowed accelerations permit, without jumps. In follow mode with one target, from constant speed, speed and acceleration are continuous, accelerations and their rates stay within the limits, and the target is reached with no acceleration left, at the wanted time whenever the limits permit and later otherwise; with several targets of different slopes the same continuity and limits hold and the last speed is reached unless it falls back to position mode. A step sets the speed of the segment whose time has come, and the action ends at the last one if there are as many segments as entries.", "quantifier": "all entries, limits, start times, speeds and accelerations of the object, reference speeds and times of steps", "why_tests_cant": "The plan solves equations with square roots by case on real parameters; continuity and limits have to hold for all of them, and being on time whenever possible compares with all other plans.", "anchors": ["EnvironmentSimulator/Modules/ScenarioEngine/OSCTypeDefs/OSCPrivateAction.cpp: LongSpeedProfileAction::Start, Step, CheckAcceleration, CheckAccelerationRate, CheckSpeed, AddSpeedSegment", "EnvironmentSimulator/Modules/ScenarioEngine/OSCTypeDefs/OSCPrivateAction.hpp: LongSpeedProfileAction"]}
{"id": "C62", "title": "Keeping a longitudinal distance: limits are kept and the distance is reached without passing it", "statement": "A longitudinal distance action moves the object straight to the distance asked for when no acceleration limit is given. With limits, in every sequence of steps the acceleration stays within its limits and the speed within the maximum, the speed changes by no more than the acceleration allows, and in the braking direction or speeding direction the acceleration changes no faster than its rate; behind a target with constant speed, from close enough and with short steps, the error shrinks by a factor in every step without changing sign and an action that is not continuous ends. An overriding controller stops it from doing anything.", "quantifier": "all limits, distances, speeds, targets, step lengths and numbers of steps", "why_tests_cant": "Convergence without overshoot is a statement about unboundedly many steps for real-valued gains; a test samples one approach.", "anchors": ["EnvironmentSimulator/Modules/ScenarioEngine/OSCTypeDefs/OSCPrivateAction.cpp: LongDistanceAction::Start, Step", "EnvironmentSimulator/Modules/ScenarioEngine/OSCTypeDefs/OSCPrivateAction.hpp: LongDistanceAction", "EnvironmentSimulator/Modules/ScenarioEngine/SourceFiles/ScenarioReader.cpp: parseDynamicConstraints"]}
{"id": "C63", "title": "Keeping a lateral distance: on the given side of the target, within the limits, and reached", "statement": "Where the error of a lateral distance action in road coordinates is nothing, the object is at the given distance, with half the widths added for free space, on the given side as the target is heading, whichever ways both drive. A dynamic step goes exactly as far as the speed says with lateral speed, acceleration and jerk within the limits; without an acceleration limit the error falls by equal steps to nothing and the action ends; with one it shrinks without changing sign under stated conditions. Relative to the target entity an unlimited step puts the object beside the target, and a limited one goes as far as the speed says and turns no more than the limit allows.", "quantifier": "all distances, widths, headings, positions, speeds, limits and step lengths, any number of steps", "why_tests_cant": "Sides and directions combine by case and positions are real-valued; approach is about unboundedly many steps.", "anchors": ["EnvironmentSimulator/Modules/ScenarioEngine/OSCTypeDefs/OSCPrivateAction.cpp: LatDistanceAction::Start, Step, GetDistanceError, GetDesiredRoadPos", "EnvironmentSimulator/Modules/ScenarioEngine/OSCTypeDefs/OSCPrivateAction.hpp: LatDistanceAction", "EnvironmentSimulator/Modules/CommonMini/CommonMini.hpp: DampedSpring"]}
{"id": "C64", "title": "Tree of bounding boxes: every pair of triangles that meet is found, each pair once", "statement": "The box of a triangle is the smallest one around it, and two boxes collide just when they share a point. Building a tree from any non-empty vector of boxes ends, only reorders the vector, makes a binary tree with every box in exactly one leaf, every inner box the smallest around its children, and counts n leaves and 2n-1 nodes. The candidates of two trees are exactly the colliding pairs, each once, so with a triangle test that only answers yes on a common point the triangles found are exactly those that pass it with some triangle of the other tree.", "quantifier": "all vectors of boxes of any length and order, all triangles, all triangle tests", "why_tests_cant": "The partition is in place over an explicit stack and the recursion over two trees skips subtrees by box; that no pair is lost is a statement about all shapes of trees.", "anchors": ["EnvironmentSimulator/Modules/ScenarioEngine/OSCTypeDefs/OSCAABBTree.cpp: BBox, Tree::build, Tree::__build, divide, Tree::intersect, processCandidates", "EnvironmentSimulator/Modules/ScenarioEngine/OSCTypeDefs/OSCAABBTree.hpp: Point, Triangle, BBox, Tree"]}
{"id": "C65", "title": "Overlap of two triangles: yes just when they have a point in common", "statement": "For two triangles that are not flat, with corners in any order, overlap2d answers yes just when some point is a weighted mean of the corners of both; after a no one of the six sides has one triangle on its left and all of the other strictly on its right. If the first corner of the first triangle is inside of the second the answer is yes; swapping the second and third corner of either triangle changes nothing.", "quantifier": "all pairs of triangles in the real plane", "why_tests_cant": "The decision tree has some twenty leaves over twelve real coordinates; that each leaf is right is a statement of polynomial inequalities over all of them, and one leaf that names the wrong side only shows for one region of the first corner.", "anchors": ["EnvironmentSimulator/Modules/ScenarioEngine/OSCTypeDefs/OSCTriangle2D.hpp: orientation, intersection_test_vertex, intersection_test_edges, intersection2d, overlap2d", "EnvironmentSimulator/Modules/ScenarioEngine/OSCTypeDefs/OSCAABBTree.cpp: Triangle::collide"]}
{"id": "C66", "title": "Where swarm traffic appears: the triangles cover ellipse and roads, and what is reported is where they meet", "statement": "The value of the ellipse is negative inside, zero on and positive outside of it; the points of the parameter are just those on it and the angle is that of its tangent. The 72 triangles of the ellipse go all around, and each contains its whole arc. A road geometry is divided into pieces that follow each other without gap over its whole length, and the division ends. A solution reported for a piece is a point of the road within SMALL_NUMBER along the road of one on the ellipse.", "quantifier": "all ellipses, positions and headings, all geometries whose heading changes at a bounded rate, all continuous functions given to the root search", "why_tests_cant": "That an arc stays inside of a triangle, that no place of a road is left out and that the bracket of the root search is kept in every turn are statements about all real parameters; wrong cases need long ellipses, lines that do not start the road or a larger value at the second end.", "anchors": ["EnvironmentSimulator/Modules/ScenarioEngine/OSCTypeDefs/OSCSwarmTrafficGeometry.cpp: ellipse, paramEllipse, angleTangentEllipse, tangentIntersection, checkRange, brent_zeros, geometryIntersect", "EnvironmentSimulator/Modules/ScenarioEngine/OSCTypeDefs/OSCAABBTree.cpp: curve2triangles", "EnvironmentSimulator/Modules/ScenarioEngine/OSCTypeDefs/OSCGlobalAction.cpp: SwarmTrafficAction::createRoadSegments, createEllipseSegments"]}
{"id": "C67", "title": "The population of swarm traffic stays below the number asked for, and vehicles come and go by the rules", "statement": "In any run of steps, whatever the random choices, no null pointer is used and the vehicles noted are always fewer than the number asked for. A check takes away just the vehicles that are off the road, at its end, outside of the outer ellipse, or not inside of the middle one for the sixth time in a row, keeps the others in order, and returns how many. New vehicles are on driving lanes of the points found, at least 20 m from all others as seen from the point and not closer in the same lane than asked, and drive in the direction of the lane. Between checks nothing changes.", "quantifier": "all states, random numbers and choices, points, road networks and sequences of steps", "why_tests_cant": "The outcome depends on random draws and on sequences of steps of any length; that the count never passes the limit and no stale id is looked up is an invariant over all of them.", "anchors": ["EnvironmentSimulator/Modules/ScenarioEngine/OSCTypeDefs/OSCGlobalAction.cpp: SwarmTrafficAction::sampleRoads, spawn, ensureDistance, despawn, Step", "EnvironmentSimulator/Modules/RoadManager/RoadManager.cpp: Position::SetHeadingRelativeRoadDirection"]}
{"id": "C68", "title": "Adaptive cruise control follows the vehicle ahead, keeps to its limits and does not drive into it", "statement": "With nobody right in front, the vehicle followed is the nearest on a path ahead in the lanes linked to the own one; in general whoever is followed is really there, and nobody is missed but for somebody right in front. With steps small enough for the limits the speed is always between 0 and the set speed and changes within the limits of the vehicle unless a gap is below a metre; with nobody ahead it converges to the set speed; at the speed of the vehicle ahead it is kept just at the distance of the time gap. A vehicle ahead that does not move backwards is never driven into, however it brakes, if a step at set speed is less than a metre.", "quantifier": "all lists of other objects, speeds, limits, time steps and runs of any length", "why_tests_cant": "Safety has to hold against any behaviour of the vehicle ahead and convergence is about the limit of runs; tests run a few scenarios for a while.", "anchors": ["EnvironmentSimulator/Modules/Controllers/ControllerACC.cpp: ControllerACC::ControllerACC, Step, Activate", "EnvironmentSimulator/Modules/CommonMini/CommonMini.hpp: MIN, MAX, CLAMP"]}
{"id": "C69", "title": "An object that is to arrive together with another one does so, at the final speed", "statement": "In linear mode, with a master at constant speed, the distance the object is off shrinks with the square of the time left, for steps of any size; when less than a step is left it is there up to the square of the step and has the final speed up to a step. Off the line the profile has two phases of the same acceleration, is the only one of this kind, speeds up if and only if the average speed is too low, and the action stops in between if and only if there is time for it; it starts again when the distance takes all of the time left. The action ends exactly under the five conditions on distances and time, with the final speed; while it runs both get nearer; while the master does not, the object stands. The steady state is entered exactly when distance or time left are those of it.", "quantifier": "all distances, times, speeds, tolerances, time steps and runs of any length", "why_tests_cant": "The error at arrival is a matter of every step size and every start; the two-phase profile is a solution of a quadratic equation whose branch depends on four real numbers.", "anchors": ["EnvironmentSimulator/Modules/ScenarioEngine/OSCTypeDefs/OSCPrivateAction.cpp: SynchronizeAction::Start, Step, CalcSpeedForLinearProfile", "EnvironmentSimulator/Modules/ScenarioEngine/OSCTypeDefs/OSCPrivateAction.hpp: SynchronizeAction"]}
{"id": "C70", "title": "The ideal sensor reports exactly the objects in its view, in its own coordinates", "statement": "In view is exactly what is visible for sensors, neither host nor ghost, between near and far, and with the size of its angle to the heading of the host within half of the field of view from the angle of the sensor - which is the view meant for sensors straight ahead or back, and for objects to the left with sensors to the left. After an update the list has exactly the objects in view, once each, in order, with the number of them, and so has the list fetched by the user; positions, velocities and accelerations turned back are those of the world, headings are the difference. Where it fails: sides, full lists, vertical components, high rates.", "quantifier": "all sensors, positions of host and objects, visibilities, lists of objects and contents of memory", "why_tests_cant": "Directions and positions are continuous; tests use a sensor straight ahead, fewer objects than the list has room for and memory that happens to be 0.", "anchors": ["EnvironmentSimulator/Modules/ScenarioEngine/SourceFiles/IdealSensor.cpp: ObjectSensor::ObjectSensor, ObjectSensor::Update", "EnvironmentSimulator/Modules/ScenarioEngine/SourceFiles/IdealSensor.hpp: ObjectHit", "EnvironmentSimulator/Libraries/esminiLib/esminiLib.cpp: SE_FetchSensorObjectList", "EnvironmentSimulator/Modules/CommonMini/CommonMini.cpp: NormalizeVec2D, GetDotProduct2D"]}
{"id": "C71", "title": "Lights go from what they were to what was asked for, and flash in time", "statement": "A light state action controls exactly the light of its type (with fog and warning lights also the two they consist of). Luminosity goes linearly from what it was to what was asked for (6000 if not given) over the transition time, at once without one; the action ends with the first step at the end of the transition and then sets mode and colour. Flashing never ends, is on in the first step, keeps all its lights through each phase, which lasts for its duration up to the next step, is dark in the off phase and has the luminosity asked for in the on phase. Actions not in conflict leave each other's lights alone. Emission grows with luminosity up to the colour's maximum, colours keep their hue. Where it fails: transition times that are not a multiple of the step, bright colours, lights switched off by a conflict, unknown modes and types.", "quantifier": "all lights of a vehicle in any state, all actions (types, modes, times, durations, luminosities, colours) and all sequences of time steps", "why_tests_cant": "Tests run a few scenarios with steps that divide the transition time and compare samples; the luminosity is a function of all time steps, and the flashing of an unbounded execution.", "anchors": ["EnvironmentSimulator/Modules/ScenarioEngine/OSCTypeDefs/OSCPrivateAction.cpp: LightStateAction::Start, LightStateAction::Step, LightStateAction::SetVehicleLightState, LightStateAction::HandleConflictingLights, LightStateAction::CheckConflictingLights, LightStateAction::SetVehicleLights, LightStateAction::InitializeLights, LightStateAction::CmykToRgb", "EnvironmentSimulator/Modules/CommonMini/CommonMini.cpp: GetRgbMinMaxColor", "EnvironmentSimulator/Libraries/esminiLib/esminiLib.cpp: SE_GetObjectLightState"]}
{"id": "C72", "title": "Following a trajectory", "statement": "An entity following a trajectory without timing is, after any sequence of steps, exactly as far along the trajectory as it has driven; the action ends in the step in which the end (or, going back, the start) is reached, and what is left of the way in that step is driven straight on. With timing, its place is that of the trajectory at the accumulated scaled time (relative) or at the simulation time (absolute), plus the offset; the action ends exactly when the last time has come; the reported speed is the distance over the time. While lateral control is elsewhere nothing changes. A copy of the action does the same as the original. (Way lost or driven forward when reversing past the start, closed trajectories not driven round, scaled remainder, offset spoiling the last speed, no end under longitudinal override, no movement after a take-over, copies losing the start distance and closedness, and two wrong time-to-distance conversions of clothoids are refuted with witnesses.)", "quantifier": "for all trajectories, all sequences of steps, step lengths and speeds, all timing domains, scales and offsets", "why_tests_cant": "tests drive a few trajectories with fixed steps and speeds; the exact end, conservation of distance and the time reached hold or fail for all sequences of steps, and the failures show only when reversing, copying or combining timing with overrides", "anchors": ["EnvironmentSimulator/Modules/ScenarioEngine/OSCTypeDefs/OSCPrivateAction.cpp:335-635", "EnvironmentSimulator/Modules/ScenarioEngine/OSCTypeDefs/OSCPrivateAction.hpp:1142-1199", "EnvironmentSimulator/Modules/RoadManager/RoadManager.cpp:13303-13352", "EnvironmentSimulator/Modules/RoadManager/RoadManager.cpp:13436-13497", "EnvironmentSimulator/Modules/RoadManager/RoadManager.cpp:14152-14256", "EnvironmentSimulator/Modules/RoadManager/RoadManager.cpp:15395-15401"]}
{"id": "C73", "title": "Overrides of pedals, wheel and gear hold until the next of the same kind", "statement": "Overrides read from a scenario have their values in the documented range, moved to the nearest limit where they are not. After any run of override actions each of the six controls of the object has the latest status given for it, all others what they had, and the library reports exactly that. Starting an action never indexes out of the list, ends after one step and restarts the ghost once for each active override it switches off. An action claims a domain when the last status in it is active - with all statuses active when there is any -, and one that only switches off ends no other action. Where it fails: an inactive status hides an active one before it in the same domain, so the order of elements matters, and a copied action claims no domain.", "quantifier": "all elements, actions with any number and order of elements, all runs of actions and all states of the object's overrides", "why_tests_cant": "Tests read a few actions and compare the list afterwards; which status holds depends on the whole history of actions, and the claimed domain on the order of the elements.", "anchors": ["EnvironmentSimulator/Modules/ScenarioEngine/OSCTypeDefs/OSCPrivateAction.cpp: OverrideControlAction::AddOverrideStatus, Start, Step, RangeCheckAndErrorLog", "EnvironmentSimulator/Modules/ScenarioEngine/SourceFiles/ScenarioReader.cpp: parseOSCPrivateAction (OverrideControllerValueAction)", "EnvironmentSimulator/Libraries/esminiLib/esminiLib.cpp: copyOverrideActionListfromScenarioEngine"]}
{"id": "C74", "title": "A vehicle driven by keys, pedals or targets moves as a bicycle and keeps its limits", "statement": "However a vehicle is driven - by keys, pedals, acceleration and angle, or to a target speed - its speed stays within its limit and its wheels within 60 degrees (less at speed), and its heading within a full turn. Going forwards it is never thrown into reverse by one step; braked through standstill it stands until the throttle lets go. Each step covers exactly speed times time step; straight wheels go straight on, turned ones turn it to their side by speed, slip and length; with constant speed and angle all positions lie on one circle; where it starts makes no difference to the shape of its way. Driven by keys the object keeps both its own limit and that of the road after every step; the last key event of each axis decides. Where it fails: a brake held reverses when the speed comes to 0 exactly, coasting depends on the number of steps and not on time, target speeds and alignment of the wheels oscillate in long steps, a key held is forgotten when the opposite one is released.", "quantifier": "all states of the vehicle, all sequences of controls or key events with any inputs and time steps", "why_tests_cant": "Tests drive a few seconds and compare positions; limits and geometry are statements about every sequence of inputs and time steps, and the failures need particular ones.", "anchors": ["EnvironmentSimulator/Modules/Controllers/vehicle.cpp: Vehicle::DrivingControlTarget, DrivingControlBinary, DrivingControlAnalog, DrivingControlAccAndSteer, Update", "EnvironmentSimulator/Modules/Controllers/ControllerInteractive.cpp: Step, Activate, ReportKeyEvent"]}
{"id": "C75", "title": "The vehicle pool holds what the categories ask for and draws by weight", "statement": "Whatever the catalogs hold, the pool made of them has under each category name exactly the vehicles asked for - of a listed category, with trailers only where trailers are listed, cars with trailers only where accepted - in catalog order; every other vehicle is deleted at once. Each object parsed, trailers included, is deleted exactly once, a trailer before what tows it. A category has the first weight listed for it and the total is their sum. A draw from a category of the pool gives one of its vehicles and each can come; a draw by weight always gives a wanted vehicle, of the category in whose stretch of the weights the sample lies (moved by 1e-6). Weight 0 keeps a category from being drawn unless it is first by name. Where it fails: from catalogs without cars, buses and motorbikes the swarm may draw single trailers; a category not in the pool gives another one's vehicle; a category added later may never be drawn.", "quantifier": "all catalogs, all lists of categories and weights, all numbers drawn", "why_tests_cant": "A draw is random: tests see some of the vehicles that come; that none else can come, that all can and that each is freed once are statements about all numbers drawn and all catalogs.", "anchors": ["EnvironmentSimulator/Modules/ScenarioEngine/SourceFiles/VehiclePool.cpp: Initialize, DeleteVehicleAndTrailers, AddVehicle, GetVehicle, GetVehicles, GetRandomVehicle", "EnvironmentSimulator/Modules/ScenarioEngine/OSCTypeDefs/OSCGlobalAction.cpp: SwarmTrafficAction::Start"]}
{"id": "C76", "title": "A sloppy driver stays within the limits of its sloppiness", "statement": "Once activated, no step of the sloppy driver fails. Left alone it keeps the speed within 35 per cent times the sloppiness of that on activation, for ever, exactly with sloppiness 0; it never jumps: a step changes it by at most the whole span in a second and a half; at the end of a period it has the speed aimed at. It is never negative. A domain that is not active is left alone. Sideways it moves by the sine of its heading, never more than it goes and not at a standstill, and always knows how far it is from where it began; the deviation aimed at is between 0 and 7.5 m times the squared sloppiness. Not overriding, its turns are added to the heading of the default driver. Where it fails: overriding, the relative heading is set as heading in the world; a speed set from outside is not respected at once; the deviation may be above half a lane; going backwards is stopped.", "quantifier": "all sequences of time steps, all numbers drawn, all sloppiness in [0, 1], all initial speeds", "why_tests_cant": "The driver draws at random: a test sees a few draws; limits that hold for ever need an invariant over all runs and all draws.", "anchors": ["EnvironmentSimulator/Modules/Controllers/ControllerSloppyDriver.cpp: Step, Activate", "EnvironmentSimulator/Modules/CommonMini/CommonMini.hpp: SE_SimulationTimer, SE_Rand"]}
{"id": "C77", "title": "A vehicle driven over the network is where the messages put it", "statement": "Asynchronously the latest whole message counts whatever came before; synchronously one is taken per step in order. A message with a state gives exactly that position, heading, speed and wheel angle to the object it names and changes no other; one with heading and speed keeps the position or moves on by them. Without messages a dead-reckoned vehicle goes straight with the last speed and heading, over any number of steps by the time gone; without dead reckoning and driver input nothing changes. Under driver input the object follows the vehicle model. Messages not understood change nothing in the step they come. Default ports are distinct as long as they are port numbers, and sockets are kept. Where it fails: dead reckoning of full states is decided by a byte of the roll angle; ignored messages act in the next step; messages for others move the own object; short datagrams are filled up with old bytes; the speed of a state is lost for driver input; ports may exceed their range.", "quantifier": "all byte sequences received, all decodings of numbers, all worlds of objects, all sequences of time steps, all ports and ids", "why_tests_cant": "Tests send well-formed messages; what arbitrary bytes, orders and lost messages do is a statement about all datagrams and all earlier buffers.", "anchors": ["EnvironmentSimulator/Modules/Controllers/ControllerUDPDriver.cpp: Step, Activate", "EnvironmentSimulator/Modules/Controllers/ControllerUDPDriver.hpp: DMMessage", "EnvironmentSimulator/Modules/CommonMini/UDP.cpp: UDPServer::Receive"]}
{"id": "C78", "title": "A vehicle following a ghost steers towards the ghost's trail and takes over its speed", "statement": "The target is the point of the trail at the lookahead distance or time set, for speed and for steering. A target at most 90 degrees to either side is steered at by exactly its bearing, always with an argument in the domain of asin; at the target the wheels are straight. In steps up to 0.1 s the speed approaches that of the ghost without overshooting; without a trail the vehicle brakes, going straight. After activation object and vehicle stay together and the speed within 100 m/s over any run. Where it fails: a target behind is taken for its mirror image in front, so that a ghost straight behind is driven away from; speed and position are set whatever the active domains; a position set from elsewhere is lost.", "quantifier": "all positions, headings, targets, trails, parameters and sequences of steps", "why_tests_cant": "Tests follow one ghost on one road; bearings, trails and time steps range over continua, and runs over all lengths.", "anchors": ["EnvironmentSimulator/Modules/Controllers/ControllerFollowGhost.cpp: Step, Activate", "EnvironmentSimulator/Modules/CommonMini/CommonMini.cpp: GetCrossProduct2D, RotateVec2D"]}
{"id": "C79", "title": "A vehicle following another off the road steers towards it and drives by distance and speed difference", "statement": "The steering is the shortest turn to the bearing of the entity followed, be it ahead or behind, limited to 1; the throttle is half the sum of excess distance and speed difference, limited to 1, and monotone in both. The object goes where the vehicle model is driven to by these, over any run, never faster than 1.2 times a constant speed limit nor than its maximum, and does not jump into reverse while braking. Where it fails: at the distance set and the leader's speed it does not keep that speed, and the speed factor that can be set has no effect.", "quantifier": "all positions, headings and speeds of both, all distances, speed limits and time steps, all runs", "why_tests_cant": "Bearings, distances and speeds range over continua, the leader may do anything, and the limits are to hold in runs of any length.", "anchors": ["EnvironmentSimulator/Modules/Controllers/ControllerOffroadFollower.cpp: Step, Activate"]}
