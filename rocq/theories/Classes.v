(** Model of bpmn_python/graph/classes: the typed element classes.

    Values are references into a world of objects and lists, so that two references to one
    list are the same list.  Private fields carry the mangled name ([_Class__field]).
    Constructors take no arguments, except those of the two flow classes. *)
From Coq Require Import String List Bool Arith ZArith.
From Verif Require Import Py.
Import ListNotations.
Open Scope string_scope.
Open Scope list_scope.

(** * Classes *)

(** The modules import each other by absolute names that begin with [graph.] (for example
    activity_type.py:5), only flow_node_type.py:5 uses [bpmn_python.graph.].  With both
    directories on the path every module can be loaded under both names, as two different
    modules with two different classes. *)
Inductive root : Type := RGraph | RPackage.
Inductive cname : Type :=
| BaseElement | ConditionExpression | FlowElement | FlowNode | LaneSet | LaneClass | MessageFlow | Participant | SequenceFlow
| Activity | SubProcess | Task | CatchEvent | EndEvent | Event | IntermediateCatchEvent | IntermediateThrowEvent | StartEvent
| ThrowEvent | ExclusiveGateway | Gateway | InclusiveGateway | ParallelGateway | CallableElement | EventDefinition | Process
| RootElement.
Definition cls : Type := root * cname.
Definition root_eqb (a b : root) : bool := match a, b with RGraph, RGraph | RPackage, RPackage => true | _, _ => false end.
Definition cname_eqb (a b : cname) : bool :=
  match a, b with
  | BaseElement, BaseElement | ConditionExpression, ConditionExpression | FlowElement, FlowElement | FlowNode, FlowNode
  | LaneSet, LaneSet | LaneClass, LaneClass | MessageFlow, MessageFlow | Participant, Participant | SequenceFlow, SequenceFlow
  | Activity, Activity | SubProcess, SubProcess | Task, Task | CatchEvent, CatchEvent | EndEvent, EndEvent | Event, Event
  | IntermediateCatchEvent, IntermediateCatchEvent | IntermediateThrowEvent, IntermediateThrowEvent
  | StartEvent, StartEvent | ThrowEvent, ThrowEvent | ExclusiveGateway, ExclusiveGateway | Gateway, Gateway
  | InclusiveGateway, InclusiveGateway | ParallelGateway, ParallelGateway | CallableElement, CallableElement
  | EventDefinition, EventDefinition | Process, Process | RootElement, RootElement => true
  | _, _ => false
  end.
Definition cls_eqb (a b : cls) : bool := root_eqb (fst a) (fst b) && cname_eqb (snd a) (snd b).

(** The base class, from the [class] line and the import above it: base_element_type.py:7,
    condition_expression_type.py:7, flow_element_type.py:5-8, flow_node_type.py:5-8,
    lane_set_type.py:5-9, lane_type.py:5-9, message_flow_type.py:5-8, participant_type.py:5-8,
    sequence_flow_type.py:6-9, activities/activity_type.py:5-8, activities/subprocess_type.py:5-10,
    activities/task_type.py:5-8, events/*_type.py:5-9, gateways/*_type.py:5-8,
    root_element/*_type.py:5-10. *)
Definition parent (c : cls) : option cls :=
  match snd c with
  | BaseElement | ConditionExpression => None
  | FlowElement | LaneSet | LaneClass | MessageFlow | Participant | RootElement => Some (RGraph, BaseElement)
  | FlowNode => Some (RPackage, FlowElement)
  | SequenceFlow => Some (RGraph, FlowElement)
  | Activity | Event | Gateway => Some (RGraph, FlowNode)
  | SubProcess | Task => Some (RGraph, Activity)
  | CatchEvent | ThrowEvent => Some (RGraph, Event)
  | StartEvent | IntermediateCatchEvent => Some (RGraph, CatchEvent)
  | EndEvent | IntermediateThrowEvent => Some (RGraph, ThrowEvent)
  | ExclusiveGateway | InclusiveGateway | ParallelGateway => Some (RGraph, Gateway)
  | CallableElement | EventDefinition => Some (RGraph, RootElement)
  | Process => Some (RGraph, CallableElement)
  end.
(** The class and its bases, derived first; no chain is longer than seven classes. *)
Fixpoint bases (fuel : nat) (c : cls) : list cls :=
  match fuel with
  | 0 => []
  | S f => c :: match parent c with Some p => bases f p | None => [] end
  end.
Definition mro (c : cls) : list cls := bases 8 c.

(** * Values and the world *)
Inductive pv : Type :=
| PNone | PStr (s : string) | PBool (b : bool) | PInt (z : Z)
| PList (i : nat) (** the list with number [i] *)
| PObj (i : nat) (** the object with number [i] *)
| POther (s : string). (** a value of any other type *)
Record object : Type := mkObject { o_class : cls; o_fields : dict pv }.
Record world : Type := mkWorld { objects : list object; lists : list (list pv) }.
Definition MW := M world.

Fixpoint update {A} (i : nat) (f : A -> A) (l : list A) : list A :=
  match l, i with
  | [], _ => []
  | x :: t, 0 => f x :: t
  | x :: t, S j => x :: update j f t
  end.

(** [self.field = value]. *)
Definition assign (self : nat) (k : string) (v : pv) : MW unit :=
  mmodify (fun w => mkWorld (update self (fun o => mkObject (o_class o) (dset k v (o_fields o))) (objects w)) (lists w)).

(** [isinstance(value, str)] and so on. *)
Definition is_str (v : pv) : bool := match v with PStr _ => true | _ => false end.
Definition is_bool (v : pv) : bool := match v with PBool _ => true | _ => false end.
Definition is_none (v : pv) : bool := match v with PNone => true | _ => false end.
Definition instance_of (w : world) (c : cls) (v : pv) : bool :=
  match v with
  | PObj i => match nth_error (objects w) i with Some o => existsb (cls_eqb c) (mro (o_class o)) | None => false end
  | _ => false
  end.
(** The elements of a list value; there are no references to lists that do not exist. *)
Definition elements (w : world) (v : pv) : option (list pv) :=
  match v with PList i => nth_error (lists w) i | _ => None end.

(** * Setters *)

(** The bodies of the setters. *)
Inductive body : Type :=
| BOptStr | BThenStr | BReqStr | BPlainStr | BBool | BOptBool | BStrList | BObjList (c : cls) | BOptObj (c : cls)
| BThenObj (c : cls) | BEnum (l : list string).

(** flow_element_type.py:35-40; the same text in lane_set_type.py:38-43, lane_type.py:40-45,
    message_flow_type.py:47-52, participant_type.py:38-43, activity_type.py:36-41,
    exclusive_gateway_type.py:36-41, inclusive_gateway_type.py:36-41, callable_element_type.py:33-38. *)
Definition set_optional_str (k : string) (self : nat) (v : pv) : MW unit :=
  if is_none v then assign self k v
  else if negb (is_str v) then mraise TypeError
  else assign self k v.
(** base_element_type.py:33-38, message_flow_type.py:101-106: [if], not [elif], after the
    assignment of None. *)
Definition set_then_str (k : string) (self : nat) (v : pv) : MW unit :=
  do_ (if is_none v then assign self k v else mret tt) ;;
  if negb (is_str v) then mraise TypeError else assign self k v.
(** condition_expression_type.py:33-36, message_flow_type.py:66-69, 83-86,
    sequence_flow_type.py:47-50, 64-67. *)
Definition set_required_str (k : string) (self : nat) (v : pv) : MW unit :=
  if is_none v || negb (is_str v) then mraise TypeError else assign self k v.
(** participant_type.py:58-60. *)
Definition set_plain_str (k : string) (self : nat) (v : pv) : MW unit :=
  do_ (if negb (is_str v) then mraise TypeError else mret tt) ;; assign self k v.
(** subprocess_type.py:40-43, catch_event_type.py:37-40, process_type.py:58-61, 75-78. *)
Definition set_bool (k : string) (self : nat) (v : pv) : MW unit :=
  if is_none v || negb (is_bool v) then mraise TypeError else assign self k v.
(** sequence_flow_type.py:81-86. *)
Definition set_optional_bool (k : string) (self : nat) (v : pv) : MW unit :=
  if is_none v then assign self k v
  else if negb (is_bool v) then mraise TypeError
  else assign self k v.
(** flow_node_type.py:36-41, 55-60, lane_type.py:59-65. *)
Definition set_str_list (k : string) (self : nat) (v : pv) : MW unit :=
  do w <- mget ;;
  match elements w v with
  | None => mraise TypeError
  | Some l => do_ mfor l (fun e => if negb (is_str e) then mraise TypeError else mret tt) ;; assign self k v
  end.
(** lane_set_type.py:57-63, subprocess_type.py:57-63, 77-83, catch_event_type.py:54-60,
    throw_event_type.py:35-41, process_type.py:92-98, 112-118. *)
Definition set_object_list (c : cls) (k : string) (self : nat) (v : pv) : MW unit :=
  do w <- mget ;;
  match elements w v with
  | None => mraise TypeError
  | Some l => do_ mfor l (fun e => if negb (instance_of w c e) then mraise TypeError else mret tt) ;; assign self k v
  end.
(** lane_type.py:79-84. *)
Definition set_optional_object (c : cls) (k : string) (self : nat) (v : pv) : MW unit :=
  do w <- mget ;;
  if is_none v then assign self k v
  else if negb (instance_of w c v) then mraise TypeError
  else assign self k v.
(** sequence_flow_type.py:101-106. *)
Definition set_then_object (c : cls) (k : string) (self : nat) (v : pv) : MW unit :=
  do_ (if is_none v then assign self k v else mret tt) ;;
  do w <- mget ;;
  if negb (instance_of w c v) then mraise TypeError else assign self k v.
(** gateway_type.py:33-39, process_type.py:39-44. *)
Definition set_enum (l : list string) (k : string) (self : nat) (v : pv) : MW unit :=
  match v with
  | PStr s => if negb (existsb (String.eqb s) l) then mraise ValueError else assign self k v
  | _ => mraise TypeError
  end.
Definition run_body (b : body) : string -> nat -> pv -> MW unit :=
  match b with
  | BOptStr => set_optional_str | BThenStr => set_then_str | BReqStr => set_required_str | BPlainStr => set_plain_str
  | BBool => set_bool | BOptBool => set_optional_bool | BStrList => set_str_list | BObjList c => set_object_list c
  | BOptObj c => set_optional_object c | BThenObj c => set_then_object c | BEnum l => set_enum l
  end.

(** gateway_type.py:12, process_type.py:14. *)
Definition gateway_directions_list : list string := ["Unspecified"; "Converging"; "Diverging"; "Mixed"].
Definition process_type_list : list string := ["None"; "Public"; "Private"].

(** The setters a class defines itself: name, field and body. *)
Definition own_setters (c : cname) : dict (string * body) :=
  match c with
  | BaseElement => (* base_element_type.py:27 *) [("set_id", ("_BaseElement__id", BThenStr))]
  | ConditionExpression => (* condition_expression_type.py:28 *) [("set_condition", ("_ConditionExpression__condition", BReqStr))]
  | FlowElement => (* flow_element_type.py:29 *) [("set_name", ("_FlowElement__name", BOptStr))]
  | FlowNode => (* flow_node_type.py:31, 50 *)
      [("set_incoming", ("_FlowNode__incoming_list", BStrList)); ("set_outgoing", ("_FlowNode__outgoing_list", BStrList))]
  | LaneSet => (* lane_set_type.py:32, 52 *)
      [("set_name", ("_LaneSet__name", BOptStr)); ("set_lane_list", ("_LaneSet__lane_list", BObjList (RGraph, LaneClass)))]
  | LaneClass => (* lane_type.py:34, 54, 74 *)
      [("set_name", ("_Lane__name", BOptStr)); ("set_flow_node_ref_list", ("_Lane__flow_node_ref_list", BStrList));
       ("set_child_lane_set", ("_Lane__child_lane_set", BOptObj (RGraph, LaneSet)))]
  | MessageFlow => (* message_flow_type.py:41, 61, 78, 95 *)
      [("set_name", ("_MessageFlow__name", BOptStr)); ("set_source_ref", ("_MessageFlow__source_ref", BReqStr));
       ("set_target_ref", ("_MessageFlow__target_ref", BReqStr)); ("set_message_ref", ("_MessageFlow__message_ref", BThenStr))]
  | Participant => (* participant_type.py:32, 52 *)
      [("set_name", ("_Participant__name", BOptStr)); ("set_process_ref", ("_Participant__process_ref", BPlainStr))]
  | SequenceFlow => (* sequence_flow_type.py:42, 59, 76, 96 *)
      [("set_source_ref", ("_SequenceFlow__source_ref", BReqStr)); ("set_target_ref", ("_SequenceFlow__target_ref", BReqStr));
       ("set_is_immediate", ("_SequenceFlow__is_immediate", BOptBool));
       ("set_condition_expression", ("_SequenceFlow__condition_expression", BThenObj (RGraph, ConditionExpression)))]
  | Activity => (* activity_type.py:30 *) [("set_default", ("_Activity__default", BOptStr))]
  | SubProcess => (* subprocess_type.py:35, 52, 72 *)
      [("set_triggered_by_event", ("_SubProcess__triggered_by_event", BBool));
       ("set_lane_set_list", ("_SubProcess__lane_set_list", BObjList (RGraph, LaneSet)));
       ("set_flow_element_list", ("_SubProcess__flow_element_list", BObjList (RGraph, FlowElement)))]
  | CatchEvent => (* catch_event_type.py:32, 49 *)
      [("set_parallel_multiple", ("_CatchEvent__parallel_multiple", BBool));
       ("set_event_definition_list", ("_CatchEvent__event_definition_list", BObjList (RGraph, EventDefinition)))]
  | ThrowEvent => (* throw_event_type.py:30 *)
      [("set_event_definition_list", ("_ThrowEvent__event_definition_list", BObjList (RGraph, EventDefinition)))]
  | ExclusiveGateway => (* exclusive_gateway_type.py:30 *) [("set_default", ("_ExclusiveGateway__default", BOptStr))]
  | InclusiveGateway => (* inclusive_gateway_type.py:30 *) [("set_default", ("_InclusiveGateway__default", BOptStr))]
  | Gateway => (* gateway_type.py:28 *)
      [("set_gateway_direction", ("_Gateway__gateway_direction", BEnum gateway_directions_list))]
  | CallableElement => (* callable_element_type.py:27 *) [("set_name", ("_CallableElement__name", BOptStr))]
  | Process => (* process_type.py:34, 53, 70, 87, 107 *)
      [("set_process_type", ("_Process__process_type", BEnum process_type_list)); ("set_is_closed", ("_Process__is_closed", BBool));
       ("set_is_executable", ("_Process__is_executable", BBool));
       ("set_lane_set_list", ("_Process__lane_set_list", BObjList (RGraph, LaneSet)));
       ("set_flow_element_list", ("_Process__flow_element_list", BObjList (RGraph, FlowElement)))]
  | _ => []
  end.
(** The getters a class defines itself, and the field they return. *)
Definition own_getters (c : cname) : dict string :=
  match c with
  | BaseElement => (* base_element_type.py:20 *) [("get_id", "_BaseElement__id")]
  | ConditionExpression => (* condition_expression_type.py:21 *) [("get_condition", "_ConditionExpression__condition")]
  | FlowElement => (* flow_element_type.py:22 *) [("get_name", "_FlowElement__name")]
  | FlowNode => (* flow_node_type.py:24, 43 *)
      [("get_incoming", "_FlowNode__incoming_list"); ("get_outgoing", "_FlowNode__outgoing_list")]
  | LaneSet => (* lane_set_type.py:25, 45 *) [("get_name", "_LaneSet__name"); ("get_lane_list", "_LaneSet__lane_list")]
  | LaneClass => (* lane_type.py:27, 47, 67 *)
      [("get_name", "_Lane__name"); ("get_flow_node_ref_list", "_Lane__flow_node_ref_list");
       ("get_child_lane_set", "_Lane__child_lane_set")]
  | MessageFlow => (* message_flow_type.py:34, 54, 71, 88 *)
      [("get_name", "_MessageFlow__name"); ("get_source_ref", "_MessageFlow__source_ref");
       ("get_target_ref", "_MessageFlow__target_ref"); ("get_message_ref", "_MessageFlow__message_ref")]
  | Participant => (* participant_type.py:25, 45 *)
      [("get_name", "_Participant__name"); ("get_process_ref", "_Participant__process_ref")]
  | SequenceFlow => (* sequence_flow_type.py:35, 52, 69, 88 *)
      [("get_source_ref", "_SequenceFlow__source_ref"); ("get_target_ref", "_SequenceFlow__target_ref");
       ("is_immediate", "_SequenceFlow__is_immediate"); ("get_condition_expression", "_SequenceFlow__condition_expression")]
  | Activity => (* activity_type.py:23 *) [("get_default", "_Activity__default")]
  | SubProcess => (* subprocess_type.py:28, 45, 65 *)
      [("triggered_by_event", "_SubProcess__triggered_by_event"); ("get_lane_set_list", "_SubProcess__lane_set_list");
       ("get_flow_element_list", "_SubProcess__flow_element_list")]
  | CatchEvent => (* catch_event_type.py:25, 42 *)
      [("parallel_multiple", "_CatchEvent__parallel_multiple"); ("get_event_definition_list", "_CatchEvent__event_definition_list")]
  | ThrowEvent => (* throw_event_type.py:23 *) [("get_event_definition_list", "_ThrowEvent__event_definition_list")]
  | ExclusiveGateway => (* exclusive_gateway_type.py:23 *) [("get_default", "_ExclusiveGateway__default")]
  | InclusiveGateway => (* inclusive_gateway_type.py:23 *) [("get_default", "_InclusiveGateway__default")]
  | Gateway => (* gateway_type.py:21 *) [("get_gateway_direction", "_Gateway__gateway_direction")]
  | CallableElement => (* callable_element_type.py:20 *) [("get_name", "_CallableElement__name")]
  | Process => (* process_type.py:27, 46, 63, 80, 100 *)
      [("get_process_type", "_Process__process_type"); ("is_closed", "_Process__is_closed");
       ("is_executable", "_Process__is_executable"); ("get_lane_set_list", "_Process__lane_set_list");
       ("get_flow_element_list", "_Process__flow_element_list")]
  | _ => []
  end.

(** * Constructors *)
(** What the constructor of a class assigns itself; [IList] is a new empty list, [ISource]
    and [ITarget] are the arguments. *)
Inductive initial : Type := INone | IFalse | IStr (s : string) | IList | ISource | ITarget.
Definition own_fields (c : cname) : dict initial :=
  match c with
  | BaseElement => (* base_element_type.py:18 *) [("_BaseElement__id", INone)]
  | ConditionExpression => (* condition_expression_type.py:18-19 *) [("_ConditionExpression__condition", INone)]
  | FlowElement => (* flow_element_type.py:20 *) [("_FlowElement__name", INone)]
  | FlowNode => (* flow_node_type.py:21-22 *) [("_FlowNode__incoming_list", IList); ("_FlowNode__outgoing_list", IList)]
  | LaneSet => (* lane_set_type.py:22-23 *) [("_LaneSet__name", INone); ("_LaneSet__lane_list", IList)]
  | LaneClass => (* lane_type.py:23-25 *)
      [("_Lane__name", INone); ("_Lane__flow_node_ref_list", IList); ("_Lane__child_lane_set", INone)]
  | MessageFlow => (* message_flow_type.py:29-32 *)
      [("_MessageFlow__name", INone); ("_MessageFlow__source_ref", ISource); ("_MessageFlow__target_ref", ITarget);
       ("_MessageFlow__message_ref", INone)]
  | Participant => (* participant_type.py:22-23 *) [("_Participant__name", INone); ("_Participant__process_ref", INone)]
  | SequenceFlow => (* sequence_flow_type.py:30-33 *)
      [("_SequenceFlow__source_ref", ISource); ("_SequenceFlow__target_ref", ITarget);
       ("_SequenceFlow__condition_expression", INone); ("_SequenceFlow__is_immediate", INone)]
  | Activity => (* activity_type.py:21 *) [("_Activity__default", INone)]
  | SubProcess => (* subprocess_type.py:24-26 *)
      [("_SubProcess__triggered_by_event", IFalse); ("_SubProcess__lane_set_list", IList); ("_SubProcess__flow_element_list", IList)]
  | CatchEvent => (* catch_event_type.py:22-23 *)
      [("_CatchEvent__parallel_multiple", IFalse); ("_CatchEvent__event_definition_list", IList)]
  | ThrowEvent => (* throw_event_type.py:21 *) [("_ThrowEvent__event_definition_list", IList)]
  | ExclusiveGateway => (* exclusive_gateway_type.py:21 *) [("_ExclusiveGateway__default", INone)]
  | InclusiveGateway => (* inclusive_gateway_type.py:21 *) [("_InclusiveGateway__default", INone)]
  | Gateway => (* gateway_type.py:19 *) [("_Gateway__gateway_direction", IStr "Unspecified")]
  | CallableElement => (* callable_element_type.py:18 *) [("_CallableElement__name", INone)]
  | Process => (* process_type.py:21-25 *)
      [("_Process__process_type", IStr "None"); ("_Process__is_closed", IFalse); ("_Process__is_executable", IFalse);
       ("_Process__lane_set_list", IList); ("_Process__flow_element_list", IList)]
  | _ => []
  end.
(** The value of an initial field; new lists are added at the end of [ls]. *)
Definition initial_value (s t : pv) (i : initial) (ls : list (list pv)) : list (list pv) * pv :=
  match i with
  | INone => (ls, PNone)
  | IFalse => (ls, PBool false)
  | IStr x => (ls, PStr x)
  | IList => (ls ++ [[]], PList (length ls))
  | ISource => (ls, s)
  | ITarget => (ls, t)
  end.
Fixpoint initial_fields (s t : pv) (fs : dict initial) (ls : list (list pv)) : list (list pv) * dict pv :=
  match fs with
  | [] => (ls, [])
  | (k, i) :: r =>
      let (ls1, v) := initial_value s t i ls in
      let (ls2, d) := initial_fields s t r ls1 in (ls2, (k, v) :: d)
  end.
(** The assignments of all constructors of the chain, base first: every [__init__] calls that
    of its base class before its own assignments. *)
Definition all_fields (c : cls) : dict initial := flat_map (fun b => own_fields (snd b)) (rev (mro c)).
(** message_flow_type.py:23-26, sequence_flow_type.py:24-27 (the second test looks at
    [source_ref] again).  The other constructors ignore [s] and [t]. *)
Definition check_ends (c : cname) (s t : pv) : res unit :=
  match c with
  | MessageFlow | SequenceFlow =>
      if is_none s || negb (is_str s) then Err TypeError
      else if is_none t || negb (is_str s) then Err TypeError
      else Ok tt
  | _ => Ok tt
  end.
Definition construct (c : cls) (s t : pv) : MW pv :=
  do_ mread (fun _ => check_ends (snd c) s t) ;;
  fun w => let (ls, fs) := initial_fields s t (all_fields c) (lists w) in
           (mkWorld (objects w ++ [mkObject c fs]) ls, Ok (PObj (length (objects w)))).

(** * Calls *)
(** Looking a method up along the base classes. *)
Fixpoint find_method {A} (own : cname -> dict A) (l : list cls) (m : string) : option A :=
  match l with
  | [] => None
  | c :: r => match dget m (own (snd c)) with Some a => Some a | None => find_method own r m end
  end.
Definition class_of (o : nat) (w : world) : res cls :=
  match nth_error (objects w) o with Some x => Ok (o_class x) | None => Err Unmodelled end.
(** [o.m(v)] for a setter. *)
Definition call_setter (o : nat) (m : string) (v : pv) : MW unit :=
  do c <- mread (class_of o) ;;
  match find_method own_setters (mro c) m with
  | Some (k, b) => run_body b k o v
  | None => mraise AttributeError
  end.
(** [o.m()] for a getter. *)
Definition call_getter (o : nat) (m : string) : MW pv :=
  do c <- mread (class_of o) ;;
  match find_method own_getters (mro c) m with
  | Some k => mread (fun w => match nth_error (objects w) o with
                              | Some x => match dget k (o_fields x) with Some v => Ok v | None => Err AttributeError end
                              | None => Err Unmodelled
                              end)
  | None => mraise AttributeError
  end.
(** A program: constructor, setter and getter calls, [list(l)] and [l.append(v)]. *)
Inductive call : Type :=
| CNew (c : cls) (s t : pv) | CSet (o : nat) (m : string) (v : pv) | CGet (o : nat) (m : string)
| CList (l : list pv) | CAppend (i : nat) (v : pv).
Definition exec (c : call) : MW pv :=
  match c with
  | CNew c s t => construct c s t
  | CSet o m v => do_ call_setter o m v ;; mret PNone
  | CGet o m => call_getter o m
  | CList l => fun w => (mkWorld (objects w) (lists w ++ [l]), Ok (PList (length (lists w))))
  | CAppend i v => fun w => (mkWorld (objects w) (update i (fun l => l ++ [v]) (lists w)), Ok PNone)
  end.
(** The worlds a program can reach; an exception does not end it. *)
Fixpoint run (l : list call) (w : world) : world :=
  match l with [] => w | c :: r => run r (fst (exec c w)) end.
Definition empty_world : world := mkWorld [] [].
