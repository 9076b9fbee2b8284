(** Specification vocabulary for XML documents: which elements of a document describe
    nodes and flows, and what they say.  Elements are seen through the DOM interface
    (Xml.v): local name, attributes, children, descendants by name. *)
From Coq Require Import String List Bool Permutation.
From Verif Require Import Py Nx Rep SpecRep Xml.
Import ListNotations.
Open Scope string_scope.
Open Scope list_scope.

(** An element (not text or a comment) with the local name [t]. *)
Definition named (t : string) (e : dom) : Prop :=
  match e with DElem g _ _ => local_name g = t | _ => False end.
(** [x] is [e] or lies below it. *)
Inductive inside : dom -> dom -> Prop :=
| inside_here : forall e, inside e e
| inside_below : forall x k g a ks, In k ks -> inside x k -> inside x (DElem g a ks).

(** The elements that become nodes. *)
Definition node_kinds : list string :=
  ["task"; "userTask"; "serviceTask"; "manualTask"; "subProcess"; "dataObject";
   "startEvent"; "intermediateCatchEvent"; "endEvent"; "intermediateThrowEvent"; "boundaryEvent";
   "complexGateway"; "eventBasedGateway"; "inclusiveGateway"; "exclusiveGateway"; "parallelGateway"].

(** A scope is a process, or a subprocess standing directly in a scope. *)
Inductive scope (root : dom) : dom -> Prop :=
| scope_process : forall p, inside p root -> named "process" p -> scope root p
| scope_sub : forall s x, scope root s -> In x (d_kids s) -> named "subProcess" x -> scope root x.
Definition declared (root s x : dom) : Prop :=
  scope root s /\ In x (d_kids s) /\ exists t, In t node_kinds /\ named t x.
Definition flow_in (root s x : dom) : Prop :=
  scope root s /\ In x (d_kids s) /\ named "sequenceFlow" x.

(** The collaboration that is read is the first one. *)
Definition collaboration_of (root : dom) : option dom :=
  match document_elements "collaboration" root with c :: _ => Some c | [] => None end.
Definition participant_in (root x : dom) : Prop :=
  exists c, collaboration_of root = Some c /\ In x (d_kids c) /\ named "participant" x.
Definition message_in (root x : dom) : Prop :=
  exists c, collaboration_of root = Some c /\ In x (d_kids c) /\ named "messageFlow" x.

(** An attribute with its default. *)
Definition att (k dflt : string) (e : dom) : pyval :=
  match dget k (d_atts e) with Some v => VStr v | None => VStr dflt end.
Definition optional (k : string) (e : dom) : pyval :=
  match dget k (d_atts e) with Some v => VStr v | None => VNone end.

(** The attributes of a node that its element determines, by local name. *)
Definition kind_attributes (e : dom) : list (string * pyval) :=
  let direction := ("gatewayDirection", att "gatewayDirection" "Unspecified" e) in
  let default := ("default", optional "default" e) in
  let parallel := ("parallelMultiple", att "parallelMultiple" "false" e) in
  match d_local e with
  | "task" | "userTask" | "serviceTask" | "manualTask" => [default]
  | "subProcess" => [default; ("triggeredByEvent", att "triggeredByEvent" "false" e)]
  | "dataObject" => [("isCollection", att "isCollection" "false" e)]
  | "startEvent" => [parallel; ("isInterrupting", att "isInterrupting" "true" e)]
  | "intermediateCatchEvent" => [parallel]
  | "boundaryEvent" => [parallel; ("cancelActivity", att "cancelActivity" "true" e);
                        ("attachedToRef", att "attachedToRef" "" e)]
  | "complexGateway" | "inclusiveGateway" | "exclusiveGateway" => [direction; default]
  | "eventBasedGateway" => [direction; ("instantiate", att "instantiate" "false" e);
                            ("eventGatewayType", att "eventGatewayType" "Exclusive" e)]
  | "parallelGateway" => [direction]
  | _ => []
  end.
(** The kinds of event definitions that are looked for, by local name. *)
Definition event_kinds (e : dom) : option (list string) :=
  match d_local e with
  | "startEvent" => Some ["messageEventDefinition"; "timerEventDefinition"; "conditionalEventDefinition";
                          "escalationEventDefinition"; "signalEventDefinition"]
  | "intermediateCatchEvent" => Some ["messageEventDefinition"; "timerEventDefinition"; "signalEventDefinition";
                          "conditionalEventDefinition"; "escalationEventDefinition"]
  | "endEvent" => Some ["messageEventDefinition"; "signalEventDefinition"; "escalationEventDefinition";
                        "errorEventDefinition"; "compensateEventDefinition"; "terminateEventDefinition"]
  | "intermediateThrowEvent" => Some ["messageEventDefinition"; "signalEventDefinition";
                        "escalationEventDefinition"; "compensateEventDefinition"]
  | "boundaryEvent" => Some ["messageEventDefinition"; "timerEventDefinition"; "signalEventDefinition";
                        "conditionalEventDefinition"; "escalationEventDefinition"; "errorEventDefinition"]
  | _ => None
  end.

(** Node [eid x] of [d] is as the element [x] in the scope [s] says. *)
Definition described (d : diagram) (s x : dom) : Prop :=
  let n := get_attribute "id" x in
  attr d n "id" = Some (VStr n) /\
  attr d n "type" = Some (VStr (d_local x)) /\
  attr d n "node_name" = Some (att "name" "" x) /\
  attr d n "process" = Some (VStr (get_attribute "id" s)) /\
  (forall k v, In (k, v) (kind_attributes x) -> attr d n k = Some v) /\
  (forall ts, event_kinds x = Some ts ->
     exists l, attr d n "event_definitions" = Some (VDefs l) /\
       Permutation l (flat_map (fun t => map (fun y => (get_attribute "id" y, t)) (elements_in t x)) ts)).

(** The texts of the children with the local name [k]. *)
Definition child_texts (k : string) (e : dom) : list string :=
  flat_map (fun x => match x with
                     | DElem g _ (DText s :: _) | DElem g _ (DOther s :: _) =>
                         if String.eqb (local_name g) k then [s] else []
                     | _ => []
                     end) (d_kids e).

(** The ids of the flow nodes that stand directly in an element, in document order. *)
Definition node_children (e : dom) : list string :=
  flat_map (fun x => match x with
                     | DElem g _ _ => if in_dec string_dec (local_name g) node_kinds then [get_attribute "id" x] else []
                     | _ => []
                     end) (d_kids e).

(** Conditions of a flow element. *)
Definition flow_conditions (f : dom) : list (string * string) :=
  flat_map (fun x => match x with
                     | DElem g _ (DText s :: _) | DElem g _ (DOther s :: _) =>
                         if String.eqb (local_name g) "conditionExpression" then [(get_attribute "id" x, s)] else []
                     | _ => []
                     end) (d_kids f).
Definition last_of {A} (l : list A) : option A := match rev l with x :: _ => Some x | [] => None end.

(** The flow [f] of the scope [s] is recorded in [d] and its connection carries what the
    element says. *)
Definition flow_described (d : diagram) (s f : dom) : Prop :=
  let u := get_attribute "sourceRef" f in
  let v := get_attribute "targetRef" f in
  let name := match dget "name" (d_atts f) with Some n => n | None => "" end in
  dget (get_attribute "id" f) (seq_flows d) = Some (mkFlow name u v) /\
  link_attr d u v "id" (VStr (get_attribute "id" f)) /\
  link_attr d u v "process" (VStr (get_attribute "id" s)) /\
  link_attr d u v "name" (VStr name) /\
  link_attr d u v "sourceRef" (VStr u) /\
  link_attr d u v "targetRef" (VStr v) /\
  (forall x, link_attr d u v "conditionExpression" x <->
             exists c, last_of (flow_conditions f) = Some c /\ x = VCond (fst c) (snd c)).

(** The elements whose children the importer goes through one by one. *)
Inductive walked (root : dom) : dom -> Prop :=
| walked_scope : forall s, scope root s -> walked root s
| walked_node : forall s x, declared root s x -> walked root x
| walked_flow : forall s x, flow_in root s x -> walked root x
| walked_collaboration : forall c, collaboration_of root = Some c -> walked root c
| walked_plane : forall g p r1 r2, document_elements "BPMNDiagram" root = g :: r1 -> elements_in "BPMNPlane" g = p :: r2 ->
    walked root p.
