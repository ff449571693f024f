(** Which Python runs the scripts of test_data: preprocess.sh calls python3, filter_and_preprocess.sh calls python. Definitions about the scripts have
    it as an implicit argument. Python 2: a string is a list of bytes. Python 3: a list of code points, files are UTF-8. *)
Inductive python := py2 | py3.
Existing Class python.
