(** A diagram used in the examples about writing and reading XML: two pools with a process
    and one without, a lane inside a lane, a subprocess, an event with a definition, a
    condition and message flows. *)
From Coq Require Import String List Bool.
From Verif Require Import Py Consts Nx Rep Xml Export Import.
Import ListNotations.
Open Scope string_scope.
Open Scope list_scope.

(** The four attributes of a drawn node. *)
Definition box (x y : string) : attrs := [("width", VStr "100"); ("height", VStr "80"); ("x", VStr x); ("y", VStr y)].
(** The attributes that every node has. *)
Definition flow_node (id type name process : string) (ins outs : list string) : attrs :=
  [("id", VStr id); ("type", VStr type); ("node_name", VStr name); ("process", VStr process);
   ("incoming", VList ins); ("outgoing", VList outs)].
(** The attributes of a drawn sequence flow. *)
Definition flow_atts (id process name src tgt : string) (points : list (string * string)) : attrs :=
  [("id", VStr id); ("process", VStr process); ("name", VStr name); ("sourceRef", VStr src); ("targetRef", VStr tgt);
   ("waypoints", VPoints points)].
Definition drawn : diagram := {|
  dgraph := {|
    gnodes :=
      [("s", flow_node "s" "startEvent" "Begin" "p" [] ["f1"] ++
             [("parallelMultiple", VStr "false"); ("isInterrupting", VStr "true");
              ("event_definitions", VDefs [("m1", "messageEventDefinition")])] ++ box "1" "2");
       ("sub", flow_node "sub" "subProcess" "Inner" "p" ["f1"] ["f2"; "f5"] ++
             [("default", VStr "f5"); ("triggeredByEvent", VStr "false"); ("node_ids", VList ["u"; "g"])] ++
             [("isExpanded", VStr "true")] ++ box "3" "4");
       ("u", flow_node "u" "userTask" "Check" "sub" ["f3"] [] ++ [("default", VNone)] ++ box "5" "6");
       ("g", flow_node "g" "eventBasedGateway" "" "sub" [] ["f3"] ++
             [("gatewayDirection", VStr "Diverging"); ("instantiate", VStr "true"); ("eventGatewayType", VStr "Parallel")] ++
             box "7" "8");
       ("e", flow_node "e" "endEvent" "" "p" ["f2"] ["m"] ++ [("event_definitions", VDefs [("t1", "terminateEventDefinition")])] ++
             box "9" "10");
       ("v", flow_node "v" "task" "Other way" "p" ["f5"] [] ++ [("default", VNone)] ++ box "9" "20");
       ("t", flow_node "t" "task" "Receive" "q" ["m"] ["m2"] ++ [("default", VNone)] ++ box "11" "12");
       ("R", [("type", VStr "participant"); ("process", VStr "R"); ("incoming", VList ["m2"])] ++ box "0" "400")];
    gedges :=
      [mkEdge "s" "sub" (flow_atts "f1" "p" "" "s" "sub" [("1", "2"); ("3", "4")]);
       mkEdge "sub" "e" (flow_atts "f2" "p" "large" "sub" "e" [("3", "4"); ("5", "9"); ("9", "10")] ++
                         [("conditionExpression", VCond "c" "x > 1")]);
       mkEdge "sub" "v" (flow_atts "f5" "p" "otherwise" "sub" "v" [("3", "4"); ("9", "20")]);
       mkEdge "u" "g" (flow_atts "f3" "sub" "again" "g" "u" [("7", "8"); ("5", "6")]);
       mkEdge "e" "t" [("id", VStr "m"); ("name", VStr "order"); ("sourceRef", VStr "e"); ("targetRef", VStr "t");
                       ("waypoints", VPoints [("9", "10"); ("11", "12")])];
       mkEdge "t" "R" [("id", VStr "m2"); ("name", VStr "parcel"); ("sourceRef", VStr "t"); ("targetRef", VStr "R");
                       ("waypoints", VPoints [("11", "12"); ("0", "400")])]] |};
  seq_flows := [("f1", mkFlow "" "s" "sub"); ("f2", mkFlow "large" "sub" "e"); ("f5", mkFlow "otherwise" "sub" "v");
                ("f3", mkFlow "again" "g" "u")];
  procs :=
    [("p", [("id", VStr "p"); ("name", VStr "Selling"); ("isClosed", VStr "false"); ("isExecutable", VStr "true");
            ("processType", VStr "None"); ("node_ids", VList ["s"; "sub"; "e"; "v"]);
            ("laneSet", VLaneSet "" [("l1", Lane "Sales" (Some ("", [("l2", Lane "Desk" None ["v"] (Some ("true", ("15", "20", "10", "20"))))])) ["s"; "sub"; "e"; "v"] (Some ("true", ("30", "40", "10", "20"))))])]);
     ("q", [("id", VStr "q"); ("name", VStr ""); ("isClosed", VStr "true"); ("isExecutable", VStr "false");
            ("processType", VStr "Private"); ("node_ids", VList ["t"])])];
  diag_attrs := [("id", VStr "dia"); ("name", VStr "Example")];
  plane_attrs := [("id", VStr "plane"); ("bpmnElement", VStr "C")];
  collaboration := Some (mkCollab "C"
    [("P", [("name", VStr "Seller"); ("processRef", VStr "p"); ("isHorizontal", VStr "true")] ++ box "0" "0");
     ("Q", [("name", VStr "Buyer"); ("processRef", VStr "q"); ("isHorizontal", VStr "false")] ++ box "0" "200");
     ("R", [("name", VStr "Courier"); ("processRef", VStr ""); ("isHorizontal", VStr "true")] ++ box "0" "400")]
    [("m", mkFlow "order" "e" "t"); ("m2", mkFlow "parcel" "t" "R")]) |}.

(** The written document and what is read from it. *)
Definition drawn_tree : etree := match export_tree 5 drawn with Ok t => t | Err _ => E "" [] None None [] end.
Definition drawn_file : dom := match export_xml_file 5 drawn with Ok f => f | Err _ => DText "" end.
Definition redrawn : diagram := fst (load_diagram_from_xml (fun l => l) drawn_file empty_diagram).
Example drawn_exported : export_tree 5 drawn = Ok drawn_tree /\ export_xml_file 5 drawn = Ok drawn_file.
Proof. vm_compute. auto. Qed.
Example drawn_loaded : load_diagram_from_xml (fun l => l) drawn_file empty_diagram = (redrawn, Ok tt).
Proof. vm_compute. reflexivity. Qed.
