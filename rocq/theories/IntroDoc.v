(** The document which a GraphQL client sends to ask for the whole schema (specification for C57): getIntrospectionQuery of
    graphql-js, with its fragments.  [d] is how far TypeRef follows [ofType] (there it is 7). *)
From Verif Require Import Base Val Query ReadGraphql.

Definition sel_field (n : String.string) : sel := SField None (s n) [] [] None.
Definition sel_object (n : String.string) (args : list (str * gval)) (l : list sel) : sel := SField None (s n) args [] (Some l).
Definition spread (n : String.string) : sel := SSpread (s n) [].
Arguments sel_field _%string_scope.
Arguments sel_object _%string_scope.
Arguments spread _%string_scope.
Definition all_of_them : list (str * gval) := [(s "includeDeprecated", GBool true)].
(** query IntrospectionQuery *)
Definition introspection_query : list sel :=
  [sel_object "__schema" [] [
     sel_object "queryType" [] [sel_field "name"];
     sel_object "mutationType" [] [sel_field "name"];
     sel_object "subscriptionType" [] [sel_field "name"];
     sel_object "types" [] [spread "FullType"];
     sel_object "directives" [] [
       sel_field "name"; sel_field "description"; sel_field "locations"; sel_object "args" [] [spread "InputValue"]]]].
(** fragment FullType on __Type *)
Definition full_type : list sel :=
  [sel_field "kind"; sel_field "name"; sel_field "description";
   sel_object "fields" all_of_them [
     sel_field "name"; sel_field "description";
     sel_object "args" [] [spread "InputValue"];
     sel_object "type" [] [spread "TypeRef"];
     sel_field "isDeprecated"; sel_field "deprecationReason"];
   sel_object "inputFields" [] [spread "InputValue"];
   sel_object "interfaces" [] [spread "TypeRef"];
   sel_object "enumValues" all_of_them [sel_field "name"; sel_field "description"; sel_field "isDeprecated"; sel_field "deprecationReason"];
   sel_object "possibleTypes" [] [spread "TypeRef"]].
(** fragment InputValue on __InputValue *)
Definition input_value : list sel :=
  [sel_field "name"; sel_field "description"; sel_object "type" [] [spread "TypeRef"]; sel_field "defaultValue"].
(** fragment TypeRef on __Type *)
Fixpoint type_ref (d : nat) : list sel :=
  [sel_field "kind"; sel_field "name"] ++ match d with O => [] | S d => [sel_object "ofType" [] (type_ref d)] end.
Definition introspection_document (d : nat) : list gdef :=
  [DOp (OpDef OQuery (Some (s "IntrospectionQuery")) [] introspection_query);
   DFrag (s "FullType") full_type; DFrag (s "InputValue") input_value; DFrag (s "TypeRef") (type_ref d)].
