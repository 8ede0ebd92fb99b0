{
 "M_String.append|append keeps the cached hash": {
  "tightened": [
   "C14_mutation_resets_hash"
  ]
 },
 "M_String.is_ws|backspace no longer a blank": {
  "tightened": [
   "C59_trim"
  ]
 },
 "M_Array.arr_sort|sorts types without order too": {
  "tightened": [
   "C27_array_sort_unordered (new)"
  ]
 },
 "M_Hashtable.hindex|mask missing": {
  "note": "equivalent on the model: the hash codes of the keys are never negative there, so the mask changes nothing"
 },
 "M_MemoryStream.ms_write|written length goes back after seek": {
  "tightened": [
   "C48_written (new)"
  ]
 },
 "M_Xml.tag_char|other quote ends the value": {
  "tightened": [
   "C46_hand_written"
  ]
 },
 "M_Document.exec_unmanaged|no range check without manager": {
  "tightened": [
   "C127_unmanaged_edits (new)"
  ]
 },
 "M_DiffInfo.print_obj|letters swapped": {
  "note": "equivalent for every reachable report: the edited branch needs an addition or a deletion that carries two objects, and addStep is never called so (C132_shape); the branches with one object are covered by C132_entry"
 },
 "M_Fs.sys_rename|a directory is moved into itself": {
  "note": "the edit does not typecheck (no mutant); the same bug was tried as 'a directory is moved below itself'"
 },
 "M_Inflater.get_total_out|total out is the last output": {
  "tightened": [
   "C135_totals (new)"
  ]
 },
 "M_CharsetReg.guess_name|guessed byte orders swapped": {
  "tightened": [
   "C137_guess_utf16 (new)"
  ]
 },
 "M_Eigen.eigen3|p instead of 2p": {
  "tightened": [
   "C139_three (new)"
  ]
 },
 "M_Eigen.eigen3|the least one first": {
  "tightened": [
   "C139_three (new)"
  ]
 },
 "M_Eigen.eigen3|phi is pi at the lower bound": {
  "tightened": [
   "C139_three (new)"
  ]
 },
 "M_Eigen.eigen3|acos of values above 1": {
  "tightened": [
   "C139_three (new)"
  ]
 },
 "M_Eigen.eigen3|the trace is not kept": {
  "tightened": [
   "C139_three (new)"
  ]
 },
 "M_Wcs.initWcs|no 1 in the corner": {
  "tightened": [
   "C140_places (new)"
  ]
 }
}