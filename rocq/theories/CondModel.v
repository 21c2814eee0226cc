(** OpenSCENARIO conditions, condition groups and triggers.
    Source: EnvironmentSimulator/Modules/ScenarioEngine/OSCTypeDefs/OSCCondition.{hpp,cpp} (OT/). *)
From Coq Require Import String Ascii NArith Floats.SpecFloat.
From Verif Require Import QAux.

(** OT/OSCCommon.hpp:18-27 enum Rule;
    the UNDEFINED value of the enum only logs an error and yields false (cpp:82-86). *)
Inductive rule := GREATER_THAN | LESS_THAN | EQUAL_TO | GREATER_OR_EQUAL | LESS_OR_EQUAL | NOT_EQUAL_TO
                | UNDEFINED_RULE.

(** OT/OSCCondition.cpp:56-87 EvaluateRule(double, double, Rule).
    Simplification: doubles are exact rationals, no NaN/inf (see [evaluate_rule_f] for the IEEE version). *)
Definition evaluate_rule_q (a b : Q) (r : rule) : bool :=
  match r with
  | GREATER_THAN => Qltb (b + SMALL) a
  | GREATER_OR_EQUAL => Qleb (b - SMALL) a
  | LESS_THAN => Qltb a (b - SMALL)
  | LESS_OR_EQUAL => Qleb a (b + SMALL)
  | EQUAL_TO => Qeqb a b || (Qltb (b - SMALL) a && Qltb a (b + SMALL))
  | NOT_EQUAL_TO => negb (Qeqb a b || (Qltb (b - SMALL) a && Qltb a (b + SMALL)))
  | UNDEFINED_RULE => false
  end.

(** IEEE binary64 operations used by EvaluateRule(double): CM/CommonMini.hpp:52 SMALL_NUMBER = 1E-6 as
    the nearest double, + and - with rounding to nearest even, comparisons that are false on NaN. *)
Definition small_f : spec_float := S754_finite false 4722366482869645 (-72).
(** OT/OSCCondition.cpp:60 b + SMALL_NUMBER in binary64. *)
Definition add_f (b : spec_float) : spec_float := SFadd 53 1024 b small_f.
(** OT/OSCCondition.cpp:64 b - SMALL_NUMBER in binary64. *)
Definition sub_f (b : spec_float) : spec_float := SFsub 53 1024 b small_f.
(** OT/OSCCondition.cpp:56-87 EvaluateRule(double, double, Rule), bit-exact IEEE version. *)
Definition evaluate_rule_f (a b : spec_float) (r : rule) : bool :=
  match r with
  | GREATER_THAN => SFltb (add_f b) a
  | GREATER_OR_EQUAL => SFleb (sub_f b) a
  | LESS_THAN => SFltb a (sub_f b)
  | LESS_OR_EQUAL => SFleb a (add_f b)
  | EQUAL_TO => SFeqb a b || (SFltb (sub_f b) a && SFltb a (add_f b))
  | NOT_EQUAL_TO => negb (SFeqb a b || (SFltb (sub_f b) a && SFltb a (add_f b)))
  | UNDEFINED_RULE => false
  end.

(** OT/OSCCondition.cpp:89-120 EvaluateRule(int, int, Rule). *)
Definition evaluate_rule_z (a b : Z) (r : rule) : bool :=
  match r with
  | GREATER_THAN => Z.ltb b a
  | GREATER_OR_EQUAL => Z.leb b a
  | LESS_THAN => Z.ltb a b
  | LESS_OR_EQUAL => Z.leb a b
  | EQUAL_TO => Z.eqb a b
  | NOT_EQUAL_TO => negb (Z.eqb a b)
  | UNDEFINED_RULE => false
  end.

(** std::string::compare: lexicographic on unsigned char values, the shorter prefix is smaller
    (used by the relational operators in OT/OSCCondition.cpp:122-153). *)
Fixpoint str_lt (a b : string) : bool :=
  match a, b with
  | EmptyString, EmptyString => false
  | EmptyString, String _ _ => true
  | String _ _, EmptyString => false
  | String x a', String y b' =>
      if N.ltb (N_of_ascii x) (N_of_ascii y) then true
      else if N.eqb (N_of_ascii x) (N_of_ascii y) then str_lt a' b' else false
  end.

(** OT/OSCCondition.cpp:122-153 EvaluateRule(string, string, Rule);
    operator>, >= and <= of std::string are defined through compare. *)
Definition evaluate_rule_s (a b : string) (r : rule) : bool :=
  match r with
  | GREATER_THAN => str_lt b a
  | GREATER_OR_EQUAL => negb (str_lt a b)
  | LESS_THAN => str_lt a b
  | LESS_OR_EQUAL => negb (str_lt b a)
  | EQUAL_TO => String.eqb a b
  | NOT_EQUAL_TO => negb (String.eqb a b)
  | UNDEFINED_RULE => false
  end.

(** OT/OSCCondition.cpp:155-186 EvaluateRule(bool, bool, Rule). *)
Definition evaluate_rule_b (a b : bool) (r : rule) : bool :=
  match r with
  | GREATER_THAN => Bool.eqb a true && Bool.eqb b false
  | GREATER_OR_EQUAL => Bool.eqb a b || (Bool.eqb a true && Bool.eqb b false)
  | LESS_THAN => Bool.eqb a false && Bool.eqb b true
  | LESS_OR_EQUAL => Bool.eqb a b || (Bool.eqb a false && Bool.eqb b true)
  | EQUAL_TO => Bool.eqb a b
  | NOT_EQUAL_TO => negb (Bool.eqb a b)
  | UNDEFINED_RULE => false
  end.

(** OT/OSCCondition.hpp:34-38 ConditionDelay::ConditionValue. *)
Notation cval := (Q * bool)%type (only parsing).

(** OT/OSCCondition.hpp:31-61 class ConditionDelay: values_ and current_index_. *)
Record hist := mkHist { values : list cval; cur : nat }.

(** OT/OSCCondition.cpp:1733-1736 std::lower_bound with comparator pivot.time_ < t:
    index of the first element whose time is not below t.  (std::lower_bound is only specified for
    sorted ranges; on an unsorted range the real result is unspecified, here it is the linear one.) *)
Fixpoint lower_bound_idx (l : list cval) (t : Q) : nat :=
  match l with
  | [] => 0
  | (t', _) :: r => if Qltb t' t then S (lower_bound_idx r t) else 0
  end.

(** vector helpers used by RegisterValue: overwrite / erase / insert at an index
    (std::vector operator[], erase, insert). *)
Fixpoint upd {A} (l : list A) (i : nat) (x : A) : list A :=
  match l, i with
  | [], _ => []
  | _ :: r, O => x :: r
  | y :: r, S j => y :: upd r j x
  end.
(** std::vector::erase at an index (OT/OSCCondition.cpp:1757,1759). *)
Fixpoint del {A} (l : list A) (i : nat) : list A :=
  match l, i with
  | [], _ => []
  | _ :: r, O => r
  | y :: r, S j => y :: del r j
  end.
(** std::vector::back().time_ / value_ (undefined on empty; callers guard with empty()). *)
Definition back (l : list cval) : option cval := nth_error l (length l - 1).

(** OT/OSCCondition.cpp:1716-1800 ConditionDelay::RegisterValue.
    Returns the new history and whether something was registered. *)
Definition register_value (h : hist) (time : Q) (value : bool) : hist * bool :=
  let l := values h in
  match back l with
  | None => (mkHist [(time, value)] (cur h), true)                                    (* 1718-1723 *)
  | Some (bt, bv) =>
    if Qltb time (bt + SMALL) then                                                     (* 1724 *)
      let it := lower_bound_idx l time in                                              (* 1733 *)
      let l' :=
        match nth_error l it with
        | Some (pt, pv) =>                                                             (* 1741 *)
          if Qeqb pt time then                                                         (* 1743 *)
            if Bool.eqb value pv then l                                                (* 1745 *)
            else match it with
                 | O => upd l it (pt, value)                                           (* 1747-1751 *)
                 | S _ => del (del l (S it)) it                                        (* 1755-1759 *)
                 end
          else if Bool.eqb pv value then upd l it (time, pv)                           (* 1763-1767 *)
          else match nth_error l (S it) with
               | Some (_, nv) => upd l (S it) (time, nv)                               (* 1770-1774 *)
               | None => match it with
                         | O => (time, value) :: l                                     (* 1778-1781 *)
                         | S _ => l
                         end
               end
        | None => l ++ [(time, value)]                                                 (* 1785-1789 *)
        end in
      (mkHist l' (cur h), true)
    else if negb (Bool.eqb value bv) then (mkHist (l ++ [(time, value)]) (cur h), true)(* 1792-1797 *)
    else (h, false)                                                                    (* 1799 *)
  end.

(** OT/OSCCondition.cpp:1808-1823 ConditionDelay::ResetCurrentIndex: the first entry not later than
    [time] (the loop breaks at the first match), else 0. *)
Fixpoint reset_index_from (l : list cval) (time : Q) (i : nat) : nat :=
  match l with
  | [] => 0
  | (t, _) :: r => if Qltb t (time + SMALL) then i else reset_index_from r time (S i)
  end.

(** OT/OSCCondition.cpp:1848-1851 the loop ORing the values that became due. *)
Fixpoint due_loop (l : list cval) (time : Q) (acc : bool) (i : nat) : bool * nat :=
  match l with
  | [] => (acc, i)
  | (t, v) :: r => if Qltb (t - SMALL) time then due_loop r time (acc || v) (S i) else (acc, i)
  end.

(** OT/OSCCondition.cpp:1831-1838 ghost restart check of GetValueAtTime: the index to continue from.
    [None] = out-of-bounds read of values_[current_index_ - 1]. *)
Definition restart_index (l : list cval) (ci : nat) (time : Q) : option nat :=
  match ci with
  | O => Some 0%nat
  | S j => match nth_error l j with
           | None => None
           | Some (t, _) => if Qltb time (t - SMALL) then Some (reset_index_from l time 0) else Some ci
           end
  end.

(** OT/OSCCondition.cpp:1825-1861 ConditionDelay::GetValueAtTime.
    [None] = out-of-bounds vector access (undefined behaviour in C++). *)
Definition get_value_at_time (h : hist) (time : Q) : option (bool * hist) :=
  let l := values h in
  match l with
  | [] => Some (false, h)                                                              (* 1829 *)
  | _ :: _ =>
    match restart_index l (cur h) time with                                            (* 1832-1838 *)
    | None => None
    | Some ci =>
      match nth_error l ci with
      | None => match back l with                                                      (* 1840-1844 *)
                | Some (_, v) => Some (v, mkHist l ci)
                | None => None
                end
      | Some (t, _) =>
        if Qltb (t - SMALL) time then                                                  (* 1845 *)
          let '(r, ci') := due_loop (skipn ci l) time false ci in
          Some (r, mkHist l ci')
        else match ci with
             | O => Some (false, mkHist l ci)
             | S j => match nth_error l j with                                         (* 1853-1857 *)
                      | Some (_, v) => Some (v, mkHist l ci)
                      | None => None
                      end
             end
      end
    end
  end.

(** OT/OSCCondition.hpp:79-86 ConditionEdge. *)
Inductive edge := RISING | FALLING | RISING_OR_FALLING | NONE | UNDEFINED_EDGE.

(** OT/OSCCondition.hpp:63-113 class OSCCondition: delay_, last_result_, edge_,
    state_ (true = EVALUATED), history_, cond_value_. *)
Record cond := mkCond {
  delay : Q; last_result : bool; c_edge : edge; evaluated : bool; history : hist; cond_value : bool }.

(** OT/OSCCondition.hpp:97-105 constructor (with the delay and edge set by the reader). *)
Definition new_cond (d : Q) (e : edge) : cond := mkCond d false e false (mkHist [] 0) false.

(** OT/OSCCondition.cpp:205-238 OSCCondition::CheckEdge. *)
Definition check_edge (ev : bool) (new_value old_value : bool) (e : edge) : bool :=
  match e with
  | NONE => new_value
  | _ => if ev then
           match e with
           | RISING_OR_FALLING => negb (Bool.eqb new_value old_value)
           | FALLING => negb new_value && old_value
           | RISING => new_value && negb old_value
           | _ => false
           end
         else false
  end.

(** OT/OSCCondition.cpp:276-280 OSCCondition::Reset (state_ and last_result_ are kept). *)
Definition cond_reset (c : cond) : cond :=
  mkCond (delay c) (last_result c) (c_edge c) (evaluated c) (mkHist [] 0) false.

(** Result of one evaluation: value returned and whether conditionCallback was invoked. *)
Record eval_out := mkOut { out_value : bool; out_callback : bool }.

(** OT/OSCCondition.cpp:282-316 OSCCondition::Evaluate; [raw] is the result of the virtual
    CheckCondition(sim_time).  [None] = out-of-bounds access in GetValueAtTime. *)
Definition cond_evaluate (c : cond) (sim_time : Q) (raw : bool) : option (eval_out * cond) :=
  let current_value := check_edge (evaluated c) raw (last_result c) (c_edge c) in
  let '(h1, _) := register_value (history c) sim_time current_value in
  match get_value_at_time h1 (sim_time - delay c) with
  | None => None
  | Some (adj, h2) =>
      Some (mkOut adj (adj && negb (Bool.eqb adj (cond_value c))),
            mkCond (delay c) raw (c_edge c) true h2 adj)
  end.

(** OT/OSCCondition.cpp:325-335 loop of ConditionGroup::Evaluate.  Each condition comes with the raw
    outcome its CheckCondition would return in this step. *)
Fixpoint group_loop (cs : list (cond * bool)) (sim_time : Q) (result : bool)
  : option (bool * list cond) :=
  match cs with
  | [] => Some (result, [])
  | (c, raw) :: r =>
    if result || Qltb 0 (delay c) then
      match cond_evaluate c sim_time raw with
      | None => None
      | Some (o, c') =>
          match group_loop r sim_time (result && out_value o) with
          | None => None
          | Some (res, cs') => Some (res, c' :: cs')
          end
      end
    else match group_loop r sim_time result with
         | None => None
         | Some (res, cs') => Some (res, c :: cs')
         end
  end.

(** OT/OSCCondition.cpp:318-338 ConditionGroup::Evaluate. *)
Definition group_evaluate (cs : list (cond * bool)) (sim_time : Q) : option (bool * list cond) :=
  match cs with
  | [] => Some (false, [])
  | _ :: _ => group_loop cs sim_time true
  end.

(** OT/OSCCondition.cpp:350-354 OR over all groups, without short circuit. *)
Fixpoint groups_loop (gs : list (list (cond * bool))) (sim_time : Q) (result : bool)
  : option (bool * list (list cond)) :=
  match gs with
  | [] => Some (result, [])
  | g :: r =>
    match group_evaluate g sim_time with
    | None => None
    | Some (v, g') =>
      match groups_loop r sim_time (result || v) with
      | None => None
      | Some (res, gs') => Some (res, g' :: gs')
      end
    end
  end.

(** OT/OSCCondition.cpp:369 state_ = IDLE for every condition of a trigger that fired. *)
Definition set_idle (c : cond) : cond :=
  mkCond (delay c) (last_result c) (c_edge c) false (history c) (cond_value c).

(** OT/OSCCondition.cpp:340-384 Trigger::Evaluate ([dflt] = defaultValue_). *)
Definition trigger_evaluate (dflt : bool) (gs : list (list (cond * bool))) (sim_time : Q)
  : option (bool * list (list cond)) :=
  match gs with
  | [] => Some (dflt, [])
  | _ :: _ =>
    match groups_loop gs sim_time false with
    | None => None
    | Some (true, gs') => Some (true, map (map set_idle) gs')
    | Some (false, gs') => Some (false, gs')
    end
  end.

(** OT/OSCCondition.cpp:386-395 Trigger::Reset. *)
Definition trigger_reset (gs : list (list cond)) : list (list cond) := map (map cond_reset) gs.

(** Operations the engine performs on one condition: evaluation at a time, the trigger firing
    (cpp:369), the trigger being reset (cpp:386-395). *)
Inductive cop := OpEval (t : Q) (raw : bool) | OpFired | OpReset.

(** Sequential execution of condition operations, collecting the results of the evaluations
    (callers: StoryBoardElement::EvalTriggers and Reset). *)
Fixpoint cond_run (c : cond) (ops : list cop) : option (list eval_out) :=
  match ops with
  | [] => Some []
  | OpEval t raw :: r =>
      match cond_evaluate c t raw with
      | None => None
      | Some (o, c') => match cond_run c' r with
                        | None => None
                        | Some os => Some (o :: os)
                        end
      end
  | OpFired :: r => cond_run (set_idle c) r
  | OpReset :: r => cond_run (cond_reset c) r
  end.
