(** The tutorials of the interactive page
    (zia-lang.org/crate/src/page/home/tutorials.rs), copied as data. *)
From Verif Require Import Base.
From Coq Require Import String List.
Import ListNotations.
Local Open Scope string_scope.

(** zia-lang.org/crate/src/page/home/tutorials.rs:273-278.  The field
    [expected_evaluation] exists in test builds only; it is kept here so that the
    expectations can be replayed. *)
Record tutorial_step := TutorialStep
  { step_command : string; step_explanation : string; step_expected : string }.

(** zia-lang.org/crate/src/page/home/tutorials.rs:5-117 *)
Definition factorial_tutorial : list tutorial_step :=
  [TutorialStep "let 1 ! -> 1"
     "You can first define the factorial operator, !, for one"
     "";
   TutorialStep "let assoc +1 -> left"
     "and define the increment operator +1 to be left associative"
     "";
   TutorialStep "let (_x_ +1) ! -> (_x_ +1) * _x_ !"
     "Then define the factorial of the next integer after _x_, _x_ +1, for any _x_ in terms of _x_ !"
     "";
   TutorialStep "let _x_ * 1 -> _x_"
     "Need to define the multiplication operator, *. You can start by defining that anything multiplied by one is itself"
     "";
   TutorialStep "let 2 := 1 +1"
     "Define what two is in terms of the increment operator, +1"
     "";
   TutorialStep "2 !"
     "Finally you can evaluate two factorial!"
     "2";
   TutorialStep "let 3 := 2 +1"
     "Next let's define three"
     "";
   TutorialStep "3 !"
     "Now check what three factorial is"
     "3 * 2";
   TutorialStep "let * precedes +"
     "We can reduce a multiplication expression to an addition expression but first we define the relative operator precendence"
     "";
   TutorialStep "let + (precedes ->)"
     "This allows reduction rules to not need as many parentheses"
     "";
   TutorialStep "let (_x_ * (_y_ +1) -> _x_ * _y_ + _x_)"
     "Now let's define how to reduce a multiplication expression"
     "";
   TutorialStep "3 !"
     "Now three factorial can be broken down further"
     "3 + 3";
   TutorialStep "let _x_ + 1 -> (_x_ +1)"
     "Adding one to a number increments that number"
     "";
   TutorialStep "let _x_ + (_y_ +1) -> (_x_ +1) + _y_"
     "Helps to reduce addition expressions"
     "";
   TutorialStep "let 4 := 3 +1"
     "Define four"
     "";
   TutorialStep "let 5 := 4 +1"
     "Define five"
     "";
   TutorialStep "let 6 := 5 +1"
     "Define six"
     "";
   TutorialStep "3 !"
     "Now three factorial can be broken down even further"
     "6"].

(** zia-lang.org/crate/src/page/home/tutorials.rs:118-182 *)
Definition relationships_tutorial : list tutorial_step :=
  [TutorialStep "let Alice is parent of Bob"
     "We can define Alice's relationship to Bob"
     "";
   TutorialStep "let (_x_ is parent of _y_) => _y_ is child of _x_"
     "Determine child relationship from parent relationship"
     "";
   TutorialStep "Bob is child of Alice"
     "Let's check"
     "true";
   TutorialStep "let (not _x_) => (_x_ -> false)"
     "If the negation of a predicate is true then the predicate itself is false"
     "";
   TutorialStep "let (_x_ is parent of _y_) => not _x_ is child of _y_"
     "Parents can't be children of their children"
     "";
   TutorialStep "Alice is child of Bob"
     "Let's check"
     "false";
   TutorialStep "let Alice is child of Bob"
     "We won't accidentally define a parent as a child of their child"
     "Alice is child of Bob already reduces to false";
   TutorialStep "let ((_y_ exists_such_that) (_x_ is parent of _y_) and (_y_ is parent of _z_)) => (_x_ is grandparent of _z_)"
     "Define grandparent is terms of parent relationships"
     "";
   TutorialStep "let Charlie is parent of Alice"
     "This should make Charlie the grandparent of Bob"
     "";
   TutorialStep "Charlie is grandparent of Bob"
     "Let's check"
     "true"].

(** zia-lang.org/crate/src/page/home/tutorials.rs:183-259 *)
Definition arrays_tutorial : list tutorial_step :=
  [TutorialStep "let ([ _x_ ])[ 0 ] -> _x_"
     "Define the base case for array access"
     "";
   TutorialStep "([ 2 ])[ 0 ]"
     "We can now access the element of any array with that has a single element"
     "2";
   TutorialStep "let ([ _x_ , _y_)[ 0 ] -> _x_"
     "Define the first element of an array with more than one element"
     "";
   TutorialStep "([ 5 , 3 ])[ 0 ]"
     "We can access the first element of any array"
     "5";
   TutorialStep "let ([ _x_ , _y_)[ (_i_ +1) ] -> ([ _y_)[ _i_ ]"
     "Define the how to access subsequent elements of an array"
     "";
   TutorialStep "let 1 := 0 +1"
     "Define the number one"
     "";
   TutorialStep "([ 5 , 3 ])[ 1 ]"
     "We can now access any element of any array"
     "3";
   TutorialStep "let (_x_ ]) push _y_ -> _x_ , _y_ ]"
     "Define pushing an element to the end of an array"
     "";
   TutorialStep "let ([ _x_) push _y_ -> [ _x_ push _y_"
     "Define pushing an element to the start of an array"
     "";
   TutorialStep "([ 5 ]) push 3"
     "We can now push to arrays with a single element"
     "[ 5 , 3 ]";
   TutorialStep "let (_x_ , _y_) push _z_ -> _x_ , _y_ push _z_"
     "Define pushing an element to the middle of an array"
     "";
   TutorialStep "([ 5 , 3 ]) push 1"
     "We can now push to arrays with multiple elements"
     "[ 5 , 3 , 1 ]"].

