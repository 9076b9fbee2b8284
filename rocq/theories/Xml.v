(** XML trees.  xml.etree.ElementTree and xml.dom.minidom are external libraries; this
    file models the part of their interface that bpmn_diagram_export.py and
    bpmn_diagram_import.py use.  Serialising and parsing (line 514 of the exporter,
    line 897 of the importer) are trusted to preserve tags, attributes, element
    structure and text; characters that XML cannot represent are not considered. *)
From Coq Require Import String Ascii List Bool Arith.
From Verif Require Import Py CsvRegex.
Import ListNotations.
Open Scope string_scope.
Open Scope list_scope.

(** * ElementTree: what the exporter builds.  [set] accepts any value, so attribute
    values are Python values until the tree is written. *)
Inductive etree : Type := E (tag : string) (atts : attrs) (text tail : option string) (kids : list etree).
Definition e_tag (t : etree) : string := match t with E g _ _ _ _ => g end.
Definition e_atts (t : etree) : attrs := match t with E _ a _ _ _ => a end.
Definition e_text (t : etree) : option string := match t with E _ _ x _ _ => x end.
Definition e_tail (t : etree) : option string := match t with E _ _ _ l _ => l end.
Definition e_kids (t : etree) : list etree := match t with E _ _ _ _ k => k end.

(** [SubElement(parent, tag)] with the attributes set afterwards, its text and its
    children. *)
Definition elem (tag : string) (a : attrs) (kids : list etree) : etree := E tag a None None kids.
Definition text_elem (tag text : string) : etree := E tag [] (Some text) None [].

(** * minidom: what the importer reads.  [DOther] is any child that is neither an
    element nor a text node: comments, CDATA sections, processing instructions; it
    carries its nodeValue. *)
Inductive dom : Type :=
| DElem (tag : string) (atts : dict string) (kids : list dom)
| DText (s : string)
| DOther (data : string).

Definition d_tag (t : dom) : string := match t with DElem g _ _ => g | _ => "" end.
Definition d_atts (t : dom) : dict string := match t with DElem _ a _ => a | _ => [] end.
Definition d_kids (t : dom) : list dom := match t with DElem _ _ k => k | _ => [] end.

(** bpmn_import_utils.py:18-24, [tag_name.split(':')[-1]]; also the [localName] that
    [getElementsByTagNameNS("*", ...)] compares with. *)
Fixpoint local_name (s : string) : string :=
  match s with
  | EmptyString => ""
  | String c t => if Ascii.eqb c ":" then local_name t
                  else if sexists (Ascii.eqb ":") t then local_name t else s
  end.
Definition d_local (t : dom) : string := local_name (d_tag t).

(** [getAttribute], [hasAttribute]. *)
Definition get_attribute (k : string) (t : dom) : string :=
  match dget k (d_atts t) with Some v => v | None => "" end.
(** [getAttribute(k) if hasAttribute(k) else default]. *)
Definition attribute_or (k dflt : string) (t : dom) : string :=
  match dget k (d_atts t) with Some v => v | None => dflt end.
Definition attribute_or_none (k : string) (t : dom) : pyval :=
  match dget k (d_atts t) with Some v => VStr v | None => VNone end.

(** [getElementsByTagNameNS("*", name)]: descendants in document order. *)
Fixpoint elements_in (name : string) (t : dom) : list dom :=
  match t with
  | DElem _ _ kids =>
      flat_map (fun k => (match k with
                          | DElem g _ _ => if String.eqb (local_name g) name then [k] else []
                          | _ => []
                          end) ++ elements_in name k) kids
  | _ => []
  end.
(** The same on the document whose root element is [root]. *)
Definition document_elements (name : string) (root : dom) : list dom :=
  (match root with
   | DElem g _ _ => if String.eqb (local_name g) name then [root] else []
   | _ => []
   end) ++ elements_in name root.

(** [element.firstChild.nodeValue]: the value of an element node is None, which is
    outside the model. *)
Definition first_value (t : dom) : res string :=
  match d_kids t with
  | [] => Err AttributeError
  | DText s :: _ => Ok s
  | DOther s :: _ => Ok s
  | DElem _ _ _ :: _ => Err Unmodelled
  end.

(** bpmn_import_utils.py:27-36 with the test [nodeType != TEXT_NODE] and the access to
    [tagName] (or [getAttribute]) that every loop of the importer starts with: only
    elements have these, the others raise when they are reached. *)
Definition each_element {S} (kids : list dom) (f : dom -> M S unit) : M S unit :=
  mfor kids (fun k => match k with
                      | DText _ => mret tt
                      | DOther _ => mraise AttributeError
                      | DElem _ _ _ => f k
                      end).
(** The same in loops that only build a value. *)
Definition fold_elements {A} (kids : list dom) (f : A -> dom -> res A) (a : A) : res A :=
  rfold (fun a k => match k with
                    | DText _ => Ok a
                    | DOther _ => Err AttributeError
                    | DElem _ _ _ => f a k
                    end) kids a.

(** * From the tree to the document *)

(** An attribute value that is not a string makes [tree.write] raise TypeError. *)
Definition written_attribute (p : string * pyval) : res (string * string) :=
  match snd p with VStr s => Ok (fst p, s) | _ => Err TypeError end.
Definition text_nodes (o : option string) : list dom :=
  match o with None | Some "" => [] | Some s => [DText s] end.
(** [tree.write] followed by [minidom.parse]: the element and the text after it. *)
Fixpoint written (t : etree) : res (list dom) :=
  match t with
  | E tag a text tail kids =>
      let* a' := rmap written_attribute a in
      let* ks := (fix all (l : list etree) : res (list dom) :=
                    match l with
                    | [] => Ok []
                    | k :: r => let* x := written k in let* y := all r in Ok (x ++ y)
                    end) kids in
      Ok (DElem tag a' (text_nodes text ++ ks) :: text_nodes tail)
  end.
(** The text after the root element does not belong to it. *)
Definition document (t : etree) : res dom :=
  let* l := written t in
  match l with r :: _ => Ok r | [] => Err Unmodelled end.

(** * Indentation *)

(** [not s or not s.strip()]. *)
Definition blank_text (o : option string) : bool :=
  match o with None => true | Some s => negb (sexists (fun c => negb (is_space c)) s) end.
Fixpoint times (n : nat) (s : string) : string :=
  match n with O => "" | S n' => s ++ times n' s end.
Definition line_break (level : nat) : string := String nl (times level "  ").
(** bpmn_diagram_export.py:557-578.  [level - 1] is negative only for the root, where
    the repetition gives the empty string, as for 0. *)
Fixpoint indent (level : nat) (t : etree) : etree :=
  match t with
  | E tag a text tail kids =>
      let i := line_break level in
      let j := line_break (level - 1) in
      match kids with
      | [] => E tag a text (if Nat.ltb 0 level && blank_text tail then Some j else tail) []
      | _ =>
          let text' := if blank_text text then Some (i ++ "  ")%string else text in
          let tail' := if blank_text tail then Some i else tail in
          E tag a text' (if blank_text tail' then Some j else tail') (map (indent (S level)) kids)
      end
  end.
