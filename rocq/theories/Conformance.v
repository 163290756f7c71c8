(** Generated by tools/gen_conformance.py.  Tests of the transcription, not proofs: the model, run on
    binary64 with the libm values tabulated below (computed by Python's math module), reproduces the numbers
    the repository's own tests expect (python/tests/test_DDScalar.py with rtol 1e-7, test/src/test.cpp). *)
From Coq Require Import ZArith List Bool String.
From Flocq Require Import Core BinarySingleNaN.
From Verif Require Import Outcome Scalar Float64 Model Ops64 ModelS ModelPy Samples.
Import ListNotations.
Open Scope Z_scope.
Open Scope list_scope.

Definition fl (m e : Z) : b64 := binary_normalize prec64 emax64 prec64_gt_0 prec64_lt_emax mode_NE m e false.
Fixpoint look1 (t : list (b64 * b64)) (x : b64) : b64 :=
  match t with [] => B754_nan | (a, v) :: t => if Beqb a x then v else look1 t x end.
Fixpoint look2 (t : list (b64 * b64 * b64)) (x y : b64) : b64 :=
  match t with [] => B754_nan | (a, b, v) :: t => if Beqb a x && Beqb b y then v else look2 t x y end.
Fixpoint look3 (t : list (b64 * b64 * b64 * b64)) (x y z : b64) : b64 :=
  match t with [] => B754_nan | (a, b, c, v) :: t => if Beqb a x && Beqb b y && Beqb c z then v else look3 t x y z end.

Definition tabulated : libm := {|
  m_pow := look2 [(((fl (-2412950810083421) (-49)), (fl (1) (1))), (fl (5171269290011649) (-48))); (((fl (-2412950810083421) (-49)), (fl (3) (0))), (fl (-5541353341739497) (-46))); (((fl (-4092909075990331) (-54)), (fl (1) (1))), (fl (7439340123626803) (-57))); (((fl (-4092909075990331) (-54)), (fl (3) (0))), (fl (-3380467318444677) (-58))); (((fl (5404319552844595) (-54)), (fl (1) (1))), (fl (3242591731706757) (-55))); (((fl (5404319552844595) (-54)), (fl (3) (0))), (fl (972777519512027) (-55))); (((fl (8528070413293195) (-53)), (fl (1) (1))), (fl (8074428345282355) (-53))); (((fl (8528070413293195) (-53)), (fl (3) (0))), (fl (7644917307609675) (-53))); (((fl (8771639655077359) (-53)), (fl (1) (1))), (fl (4271120248507157) (-52))); (((fl (8771639655077359) (-53)), (fl (3) (0))), (fl (8318840670409165) (-53))); (((fl (1) (0)), (fl (1) (1))), (fl (1) (0))); (((fl (1) (0)), (fl (3) (0))), (fl (1) (0))); (((fl (6369051672525795) (-52)), (fl (1) (1))), (fl (140737488355329) (-46))); (((fl (6369051672525795) (-52)), (fl (3) (0))), (fl (398065729532865) (-47))); (((fl (8106479329266893) (-52)), (fl (1) (1))), (fl (1823957849085051) (-49))); (((fl (8106479329266893) (-52)), (fl (3) (0))), (fl (820781032088273) (-47))); (((fl (1) (1)), (fl (1) (1))), (fl (1) (2))); (((fl (1) (1)), (fl (3) (0))), (fl (1) (3))); (((fl (6625187513763379) (-51)), (fl (1) (1))), (fl (4873114089201789) (-49))); (((fl (6625187513763379) (-51)), (fl (3) (0))), (fl (7168775488103151) (-48))); (((fl (3) (0)), (fl (1) (1))), (fl (9) (0))); (((fl (3) (0)), (fl (3) (0))), (fl (27) (0))); (((fl (3498703759731567) (-50)), (fl (1) (1))), (fl (5436064042623113) (-49))); (((fl (3498703759731567) (-50)), (fl (3) (0))), (fl (527888224912317) (-44))); (((fl (1) (2)), (fl (1) (1))), (fl (1) (4))); (((fl (1) (2)), (fl (3) (0))), (fl (1) (6))); (((fl (5) (1)), (fl (1) (1))), (fl (25) (2))); (((fl (5) (1)), (fl (3) (0))), (fl (125) (3))); (((fl (3) (0)), (fl (7) (-1))), (fl (411352560609291) (-43))); (((fl (3) (0)), (fl (5) (-1))), (fl (137117520203097) (-43))); (((fl (3) (0)), (fl (3) (-1))), (fl (45705840067699) (-43))); (((fl (1) (0)), (fl (1) (0))), (fl (1) (0))); (((fl (1) (0)), (fl (0) (0))), (fl (1) (0))); (((fl (1261007895663739) (-49)), (fl (1) (1))), (fl (5649315372573551) (-50))); (((fl (70368744177665) (-46)), (fl (1) (1))), (fl (35184372088833) (-45))); (((fl (-8542240497014317) (-53)), (fl (1) (1))), (fl (8101283278531147) (-53))); (((fl (-232479378863339) (-52)), (fl (1) (1))), (fl (6144394046337301) (-61))); (((fl (4889794313300993) (-48)), (fl (1) (1))), (fl (5309106138360493) (-44))); (((fl (4310164135780477) (-49)), (fl (1) (1))), (fl (257814809464633) (-42))); (((fl (4873114089201801) (-49)), (fl (1) (1))), (fl (5272946729556937) (-46))); (((fl (-932770909458637) (-53)), (fl (1) (1))), (fl (6182159278952019) (-59))); (((fl (0) (0)), (fl (1) (1))), (fl (0) (0))); (((fl (1) (3)), (fl (1) (1))), (fl (1) (6))); (((fl (15) (0)), (fl (1) (1))), (fl (225) (0))); (((fl (-8196551321814303) (-53)), (fl (1) (1))), (fl (932357712856377) (-50)))];
  m_cos := look1 [((fl (-2412950810083421) (-49)), (fl (-7446207285806667) (-54))); ((fl (-4092909075990331) (-54)), (fl (8775718220794709) (-53))); ((fl (5404319552844595) (-54)), (fl (4302453056439517) (-52))); ((fl (8528070413293195) (-53)), (fl (2631354888733173) (-52))); ((fl (8771639655077359) (-53)), (fl (5063140345366223) (-53))); ((fl (1) (0)), (fl (1216652631687587) (-51))); ((fl (6369051672525795) (-52)), (fl (5618463725088773) (-55))); ((fl (8106479329266893) (-52)), (fl (-4092909075990333) (-54))); ((fl (1) (1)), (fl (-7496634952020485) (-54))); ((fl (6625187513763379) (-51)), (fl (-4414347132307479) (-52))); ((fl (3) (0)), (fl (-4458529838789353) (-52))); ((fl (3498703759731567) (-50)), (fl (-2250489237146797) (-51))); ((fl (1) (2)), (fl (-5887498334708929) (-53))); ((fl (5) (1)), (fl (-7557684451371807) (-53)))];
  m_sin := look1 [((fl (-2412950810083421) (-49)), (fl (1025214441583493) (-50))); ((fl (-4092909075990331) (-54)), (fl (-4057786649797361) (-54))); ((fl (5404319552844595) (-54)), (fl (5323618770401843) (-54))); ((fl (8528070413293195) (-53)), (fl (7309823815439521) (-53))); ((fl (8771639655077359) (-53)), (fl (465590385700525) (-49))); ((fl (1) (0)), (fl (3789648413623927) (-52))); ((fl (6369051672525795) (-52)), (fl (8897004692604305) (-53))); ((fl (8106479329266893) (-52)), (fl (548227478442335) (-49))); ((fl (1) (1)), (fl (4095111552621091) (-52))); ((fl (6625187513763379) (-51)), (fl (7137277908627781) (-55))); ((fl (3) (0)), (fl (5084384125703515) (-55))); ((fl (3498703759731567) (-50)), (fl (4916180901850331) (-57))); ((fl (1) (2)), (fl (-3408335435861847) (-52))); ((fl (5) (1)), (fl (-2450053272283049) (-52)))];
  m_tan := look1 [((fl (-2412950810083421) (-49)), (fl (-4960544556304365) (-51))); ((fl (-4092909075990331) (-54)), (fl (-2082410349123705) (-53))); ((fl (5404319552844595) (-54)), (fl (696563309237043) (-51))); ((fl (8528070413293195) (-53)), (fl (6255431365855501) (-52))); ((fl (8771639655077359) (-53)), (fl (6626188632411701) (-52))); ((fl (1) (0)), (fl (3506970424209875) (-51))); ((fl (6369051672525795) (-52)), (fl (7131584180103113) (-50))); ((fl (8106479329266893) (-52)), (fl (-4825901620166845) (-50))); ((fl (1) (1)), (fl (-615034044623391) (-48))); ((fl (6625187513763379) (-51)), (fl (-7281584607265275) (-55))); ((fl (3) (0)), (fl (-5135780466178159) (-55))); ((fl (3498703759731567) (-50)), (fl (-76860060137861) (-51))); ((fl (1) (2)), (fl (5214363495751187) (-52))); ((fl (5) (1)), (fl (2919957580946369) (-52)))];
  m_acos := look1 [((fl (-4092909075990331) (-54)), (fl (8106479329266893) (-52))); ((fl (5404319552844595) (-54)), (fl (5702024028942169) (-52))); ((fl (8528070413293195) (-53)), (fl (2951075015833341) (-53))); ((fl (8771639655077359) (-53)), (fl (2064483154476911) (-53))); ((fl (1) (0)), (fl (0) (0)))];
  m_asin := look1 [((fl (-4092909075990331) (-54)), (fl (-4128966308953809) (-54))); ((fl (5404319552844595) (-54)), (fl (5488854892345087) (-54))); ((fl (8528070413293195) (-53)), (fl (2799350122055885) (-51))); ((fl (8771639655077359) (-53)), (fl (6041996174789985) (-52))); ((fl (1) (0)), (fl (884279719003555) (-49)))];
  m_atan := look1 [((fl (-2412950810083421) (-49)), (fl (-6041996174789987) (-52))); ((fl (-4092909075990331) (-54)), (fl (-4024586623844771) (-54))); ((fl (5404319552844595) (-54)), (fl (2625209422010243) (-53))); ((fl (8528070413293195) (-53)), (fl (1707047189901785) (-51))); ((fl (8771639655077359) (-53)), (fl (6954904418766729) (-53))); ((fl (1) (0)), (fl (884279719003555) (-50))); ((fl (6369051672525795) (-52)), (fl (2151181782703195) (-51))); ((fl (8106479329266893) (-52)), (fl (9356384993373) (-43))); ((fl (1) (1)), (fl (1246538638225297) (-50))); ((fl (6625187513763379) (-51)), (fl (2799350122055887) (-51))); ((fl (3) (0)), (fl (175787564848171) (-47))); ((fl (3498703759731567) (-50)), (fl (2836045088994943) (-51))); ((fl (1) (2)), (fl (5970951936056573) (-52))); ((fl (5) (1)), (fl (1656342511452181) (-50)))];
  m_cosh := look1 [((fl (-2412950810083421) (-49)), (fl (1279091986938361) (-45))); ((fl (-4092909075990331) (-54)), (fl (1155085052516255) (-50))); ((fl (5404319552844595) (-54)), (fl (1176946535676691) (-50))); ((fl (8528070413293195) (-53)), (fl (6521076701809) (-42))); ((fl (8771639655077359) (-53)), (fl (6813363281985919) (-52))); ((fl (1) (0)), (fl (434338585747285) (-48))); ((fl (6369051672525795) (-52)), (fl (306552082933967) (-47))); ((fl (8106479329266893) (-52)), (fl (6997407519463127) (-51))); ((fl (1) (1)), (fl (2117927889057391) (-49))); ((fl (6625187513763379) (-51)), (fl (5350774698917493) (-49))); ((fl (3) (0)), (fl (2833794925792303) (-48))); ((fl (3498703759731567) (-50)), (fl (3153811102509389) (-48))); ((fl (1) (2)), (fl (60051439074429) (-41))); ((fl (5) (1)), (fl (3027294413764759) (-38)))];
  m_sinh := look1 [((fl (-2412950810083421) (-49)), (fl (-2557215963512381) (-46))); ((fl (-4092909075990331) (-54)), (fl (-4128213275676543) (-54))); ((fl (5404319552844595) (-54)), (fl (2742874960190611) (-53))); ((fl (8528070413293195) (-53)), (fl (2465141933554975) (-51))); ((fl (8771639655077359) (-53)), (fl (5112681254357861) (-52))); ((fl (1) (0)), (fl (2646317828889793) (-51))); ((fl (6369051672525795) (-52)), (fl (8714766219281491) (-52))); ((fl (8106479329266893) (-52)), (fl (6625187513763379) (-51))); ((fl (1) (1)), (fl (255217612207885) (-46))); ((fl (6625187513763379) (-51)), (fl (1330269644388839) (-47))); ((fl (3) (0)), (fl (2819781111882967) (-48))); ((fl (3498703759731567) (-50)), (fl (3141225287654043) (-48))); ((fl (1) (2)), (fl (480089300468579) (-44))); ((fl (5) (1)), (fl (3027294401285321) (-38)))];
  m_tanh := look1 [((fl (-2412950810083421) (-49)), (fl (-4501895476628933) (-52))); ((fl (-4092909075990331) (-54)), (fl (-2011953549388215) (-53))); ((fl (5404319552844595) (-54)), (fl (2623910745770621) (-53))); ((fl (8528070413293195) (-53)), (fl (1662579567150317) (-51))); ((fl (8771639655077359) (-53)), (fl (3379457169540335) (-52))); ((fl (1) (0)), (fl (1714957578484965) (-51))); ((fl (6369051672525795) (-52)), (fl (8001865768237029) (-53))); ((fl (8106479329266893) (-52)), (fl (4264035206646599) (-52))); ((fl (1) (1)), (fl (2170797125202165) (-51))); ((fl (6625187513763379) (-51)), (fl (4478605220275029) (-52))); ((fl (3) (0)), (fl (35010376702475) (-45))); ((fl (3498703759731567) (-50)), (fl (8971254507734685) (-53))); ((fl (1) (2)), (fl (4500579061925281) (-52))); ((fl (5) (1)), (fl (9007199217610549) (-53)))];
  m_acosh := look1 [((fl (1) (0)), (fl (0) (0))); ((fl (6369051672525795) (-52)), (fl (1984676879037717) (-51))); ((fl (8106479329266893) (-52)), (fl (2686196161793281) (-51))); ((fl (1) (1)), (fl (1482762773463309) (-50))); ((fl (6625187513763379) (-51)), (fl (7845619973452395) (-52))); ((fl (3) (0)), (fl (7938707516150823) (-52))); ((fl (3498703759731567) (-50)), (fl (4053239664633449) (-51))); ((fl (1) (2)), (fl (2323223603645129) (-50))); ((fl (5) (1)), (fl (1685034661806453) (-49)))];
  m_asinh := look1 [((fl (-2412950810083421) (-49)), (fl (-4868166293287965) (-51))); ((fl (-4092909075990331) (-54)), (fl (-4058489571658385) (-54))); ((fl (5404319552844595) (-54)), (fl (5326372107320513) (-54))); ((fl (8528070413293195) (-53)), (fl (7595367705263621) (-53))); ((fl (8771639655077359) (-53)), (fl (7771048004751697) (-53))); ((fl (1) (0)), (fl (7938707516150823) (-53))); ((fl (6369051672525795) (-52)), (fl (5162097206404035) (-52))); ((fl (8106479329266893) (-52)), (fl (6081844414688303) (-52))); ((fl (1) (1)), (fl (6501556188074119) (-52))); ((fl (6625187513763379) (-51)), (fl (8106479329266893) (-52))); ((fl (3) (0)), (fl (4094777398095367) (-51))); ((fl (3498703759731567) (-50)), (fl (8340195721832473) (-52))); ((fl (1) (2)), (fl (4716873323646699) (-51))); ((fl (5) (1)), (fl (6751397880867803) (-51)))];
  m_atanh := look1 [((fl (-4092909075990331) (-54)), (fl (-4165600558368303) (-54))); ((fl (5404319552844595) (-54)), (fl (2787904748305995) (-53))); ((fl (8528070413293195) (-53)), (fl (8106479329266879) (-52))); ((fl (8771639655077359) (-53)), (fl (4868166293287961) (-51)))];
  m_exp := look1 [((fl (-2412950810083421) (-49)), (fl (3964970452340389) (-58))); ((fl (-4092909075990331) (-54)), (fl (7176573782291769) (-53))); ((fl (5404319552844595) (-54)), (fl (3039611811401035) (-51))); ((fl (8528070413293195) (-53)), (fl (5803933204881183) (-51))); ((fl (8771639655077359) (-53)), (fl (2981511134085945) (-50))); ((fl (1) (0)), (fl (6121026514868073) (-51))); ((fl (6369051672525795) (-52)), (fl (4631108218292109) (-50))); ((fl (8106479329266893) (-52)), (fl (6811297516613253) (-50))); ((fl (1) (1)), (fl (4159668786720471) (-49))); ((fl (6625187513763379) (-51)), (fl (666990829779553) (-45))); ((fl (3) (0)), (fl (2826788018837635) (-47))); ((fl (3498703759731567) (-50)), (fl (786879548770429) (-45))); ((fl (1) (2)), (fl (960500813064011) (-44))); ((fl (5) (1)), (fl (189205900470315) (-33)))];
  m_log := look1 [((fl (5404319552844595) (-54)), (fl (-5422211472926497) (-52))); ((fl (8528070413293195) (-53)), (fl (-7877487596112341) (-57))); ((fl (8771639655077359) (-53)), (fl (-3819113595636083) (-57))); ((fl (1) (0)), (fl (0) (0))); ((fl (6369051672525795) (-52)), (fl (6243314768165423) (-54))); ((fl (8106479329266893) (-52)), (fl (1323577902513265) (-51))); ((fl (1) (1)), (fl (6243314768165359) (-53))); ((fl (6625187513763379) (-51)), (fl (2430027205916231) (-51))); ((fl (3) (0)), (fl (4947709893870347) (-52))); ((fl (3498703759731567) (-50)), (fl (159569559350343) (-47))); ((fl (1) (2)), (fl (6243314768165359) (-52))); ((fl (5) (1)), (fl (2592480341699211) (-50)))];
  m_log2 := look1 [((fl (5404319552844595) (-54)), (fl (-7822597602642299) (-52))); ((fl (8528070413293195) (-53)), (fl (-2841203072393899) (-55))); ((fl (8771639655077359) (-53)), (fl (-5509816245015795) (-57))); ((fl (1) (0)), (fl (0) (0))); ((fl (6369051672525795) (-52)), (fl (2251799813685271) (-52))); ((fl (8106479329266893) (-52)), (fl (7638077104744413) (-53))); ((fl (1) (1)), (fl (1) (0))); ((fl (6625187513763379) (-51)), (fl (1752894099600305) (-50))); ((fl (3) (0)), (fl (892254565955501) (-49))); ((fl (3498703759731567) (-50)), (fl (7366726782450463) (-52))); ((fl (1) (2)), (fl (1) (1))); ((fl (5) (1)), (fl (7480317065143153) (-51)))];
  m_log10 := look1 [((fl (5404319552844595) (-54)), (fl (-2354836522404481) (-52))); ((fl (8528070413293195) (-53)), (fl (-6842298788505803) (-58))); ((fl (8771639655077359) (-53)), (fl (-6634479841385751) (-59))); ((fl (1) (0)), (fl (0) (0))); ((fl (6369051672525795) (-52)), (fl (2711437152599323) (-54))); ((fl (8106479329266893) (-52)), (fl (4598580635444729) (-54))); ((fl (1) (1)), (fl (5422874305198591) (-54))); ((fl (6625187513763379) (-51)), (fl (8442779251233569) (-54))); ((fl (3) (0)), (fl (8595052419864061) (-54))); ((fl (3498703759731567) (-50)), (fl (2217605731378797) (-52))); ((fl (1) (2)), (fl (5422874305198591) (-53))); ((fl (5) (1)), (fl (1) (0)))];
  m_cbrt := look1 [((fl (-2412950810083421) (-49)), (fl (-7315645766793435) (-52))); ((fl (-4092909075990331) (-54)), (fl (-5496174934897119) (-53))); ((fl (5404319552844595) (-54)), (fl (6029715969079181) (-53))); ((fl (8528070413293195) (-53)), (fl (8844571000794737) (-53))); ((fl (8771639655077359) (-53)), (fl (4463992386409411) (-52))); ((fl (1) (0)), (fl (1) (0))); ((fl (6369051672525795) (-52)), (fl (2527559831251811) (-51))); ((fl (8106479329266893) (-52)), (fl (2739180264085645) (-51))); ((fl (1) (1)), (fl (5674179970822795) (-52))); ((fl (6625187513763379) (-51)), (fl (1613327667783375) (-50))); ((fl (3) (0)), (fl (3247657313705851) (-51))); ((fl (3498703759731567) (-50)), (fl (3285984987989965) (-51))); ((fl (1) (2)), (fl (1787254696532879) (-50))); ((fl (5) (1)), (fl (4851355633610831) (-51)))];
  m_atan2 := look2 [(((fl (3) (0)), (fl (1) (2))), (fl (5796142707547873) (-53)))];
  m_hypot := look2 [(((fl (3498703759731567) (-50)), (fl (8528070413293195) (-53))), (fl (914374880846879) (-48)))];
  m_hypot3 := look3 [(((fl (3498703759731567) (-50)), (fl (8528070413293195) (-53)), (fl (1) (0))), (fl (3826872530384065) (-50)))] |}.
Definition F := b64ops tabulated.
Definition dd1 : list b64 := [(fl (3) (0)); (fl (1) (0)); (fl (3) (1)); (fl (1) (2)); (fl (0) (0)); (fl (5) (0)); (fl (9) (0)); (fl (1) (1)); (fl (7) (0)); (fl (1) (3))].
Definition dd2 : list b64 := [(fl (1) (2)); (fl (7) (0)); (fl (1) (0)); (fl (0) (0)); (fl (3) (1)); (fl (1) (3)); (fl (1) (1)); (fl (9) (0)); (fl (5) (0)); (fl (3) (0))].
Definition dd3 : list b64 := [(fl (5404319552844595) (-54)); (fl (3602879701896397) (-55)); (fl (3602879701896397) (-52)); (fl (3602879701896397) (-54)); (fl (1) (-1)); (fl (3152519739159347) (-52)); (fl (8106479329266893) (-53)); (fl (3602879701896397) (-53)); (fl (5404319552844595) (-53)); (fl (0) (0))].
Definition u1 : list b64 := [(fl (8106479329266893) (-52)); (fl (5404319552844595) (-52)); (fl (-3242591731706757) (-53)); (fl (3602879701896397) (-53)); (fl (-1080863910568919) (-52)); (fl (5188146770730811) (-55))].
Definition u2 : list b64 := [(fl (6369051672525795) (-52)); (fl (-6369051672525777) (-54)); (fl (6369051672525777) (-54)); (fl (-3184525836262885) (-55)); (fl (3184525836262885) (-55)); (fl (-3184525836262885) (-55))].
Definition u3 : list b64 := [(fl (-4092909075990331) (-54)); (fl (-5262983793046397) (-52)); (fl (6315580551655695) (-54)); (fl (-8988181237086479) (-57)); (fl (4884500627218611) (-55)); (fl (-7983164817655729) (-56))].
Definition u4 : list b64 := [(fl (8771639655077359) (-53)); (fl (-2455745445594195) (-53)); (fl (5893789069426075) (-56)); (fl (-6724871459254751) (-52)); (fl (8560994840224515) (-54)); (fl (-1431493952769333) (-53))].
Definition u5 : list b64 := [(fl (-2412950810083421) (-49)); (fl (1635823280016691) (-46)); (fl (-30671686500313) (-42)); (fl (-4070621372291907) (-44)); (fl (73768176855447) (-40)); (fl (-5272798395294331) (-48))].
Definition u6 : list b64 := [(fl (6625187513763379) (-51)); (fl (1049611127919469) (-48)); (fl (-5038133414013469) (-52)); (fl (6169616513802263) (-50)); (fl (-4541458810616935) (-51)); (fl (1866250984586423) (-51))].
Definition u7 : list b64 := [(fl (3498703759731567) (-50)); (fl (248444531766127) (-46)); (fl (-1192533752477403) (-50)); (fl (1590792729191533) (-48)); (fl (-1153231262927819) (-49)); (fl (3721782033008697) (-52))].
Definition u8 : list b64 := [(fl (8528070413293195) (-53)); (fl (4477300365401417) (-55)); (fl (-5372760438481715) (-57)); (fl (-4340745161170135) (-54)); (fl (8626868240647757) (-57)); (fl (-3027016768995957) (-58))].
Definition u9 : list b64 := [(fl (1) (0)); (fl (1) (1)); (fl (3) (0)); (fl (1) (2)); (fl (5) (0)); (fl (3) (1))].

(** [rtol = 1e-7], [atol = 1e-14] *)
Definition close (act exp : b64) : bool :=
  Bleb (Babs (b64_sub act exp)) (b64_add (fl (6338253001141147) (-99)) (b64_mul (fl (944473296573929) (-73)) (Babs exp))).
Definition data_len (c : cfg) (n : nat) : nat := if c_ord c =? 1 then 1 + n else ((n + 1) * (n + 2)) / 2.
(** The test data of size [n] as a number of type [c] (first order: the leading part). *)
Definition size_of (l : list b64) : nat := match List.length l with 3 => 1 | 6 => 2 | 10 => 3 | _ => 0 end%nat.
Definition num (c : cfg) (l : list b64) : dd b64 :=
  mk (Z.of_nat (size_of l)) (full (firstn (data_len c (size_of l)) l)).
Fixpoint all_close (l : data b64) (e : list b64) : bool :=
  match l, e with
  | [], [] => true
  | Some a :: l, b :: e => close a b && all_close l e
  | _, _ => false
  end.
Definition agrees (c : cfg) (r : res (dd b64)) (e : list b64) : bool :=
  match r with
  | Ok d => (size c d =? Z.of_nat (size_of e)) && all_close (m_data d) (firstn (data_len c (size_of e)) e)
  | _ => false
  end.
Definition types2 : list cfg :=
  [ {| c_ord := 1; c_tsize := 2; c_exc := true; c_dbg := false |}; {| c_ord := 1; c_tsize := -1; c_exc := true; c_dbg := false |};
    {| c_ord := 2; c_tsize := 2; c_exc := true; c_dbg := false |}; {| c_ord := 2; c_tsize := -1; c_exc := true; c_dbg := false |} ].
Definition types3 : list cfg := [ {| c_ord := 2; c_tsize := 3; c_exc := true; c_dbg := true |} ].

(* test_DDScalar.py:539  np.negative(ctx.u1) *)
Example test_00 : forallb (fun c => agrees c (apply_u F c Uneg (num c u1)) [(fl (-8106479329266893) (-52)); (fl (-5404319552844595) (-52)); (fl (3242591731706757) (-53)); (fl (-3602879701896397) (-53)); (fl (1080863910568919) (-52)); (fl (-5188146770730811) (-55))]) types2 = true.
Proof. vm_compute. reflexivity. Qed.
(* test_DDScalar.py:545  ctx.u1 + ctx.u2 *)
Example test_01 : forallb (fun c => agrees c (apply_b F c Badd (num c u1) (num c u2)) [(fl (904720687612043) (-48)); (fl (3812056634713151) (-52)); (fl (-3716217308407735) (-59)); (fl (2806748242830679) (-53)); (fl (-2731192724144241) (-54)); (fl (4007241868935853) (-56))]) types2 = true.
Proof. vm_compute. reflexivity. Qed.
(* test_DDScalar.py:548  ctx.u1 + 3 *)
Example test_02 : forallb (fun c => agrees c (apply_u F c (Uadds (fl (3) (0))) (num c u1)) [(fl (5404319552844595) (-50)); (fl (5404319552844595) (-52)); (fl (-3242591731706757) (-53)); (fl (3602879701896397) (-53)); (fl (-1080863910568919) (-52)); (fl (5188146770730811) (-55))]) types2 = true.
Proof. vm_compute. reflexivity. Qed.
(* test_DDScalar.py:551  3 + ctx.u1 *)
Example test_03 : forallb (fun c => agrees c (apply_u F c (Usadd (fl (3) (0))) (num c u1)) [(fl (5404319552844595) (-50)); (fl (5404319552844595) (-52)); (fl (-3242591731706757) (-53)); (fl (3602879701896397) (-53)); (fl (-1080863910568919) (-52)); (fl (5188146770730811) (-55))]) types2 = true.
Proof. vm_compute. reflexivity. Qed.
(* test_DDScalar.py:555  ctx.u1; r += ctx.u2 *)
Example test_04 : forallb (fun c => agrees c (add_assign F c (num c u1) (Some (num c u2))) [(fl (904720687612043) (-48)); (fl (3812056634713151) (-52)); (fl (-3716217308407735) (-59)); (fl (2806748242830679) (-53)); (fl (-2731192724144241) (-54)); (fl (4007241868935853) (-56))]) types2 = true.
Proof. vm_compute. reflexivity. Qed.
(* test_DDScalar.py:559  ctx.u1; r += 3 *)
Example test_05 : forallb (fun c => agrees c (apply_u F c (Uadds (fl (3) (0))) (num c u1)) [(fl (5404319552844595) (-50)); (fl (5404319552844595) (-52)); (fl (-3242591731706757) (-53)); (fl (3602879701896397) (-53)); (fl (-1080863910568919) (-52)); (fl (5188146770730811) (-55))]) types2 = true.
Proof. vm_compute. reflexivity. Qed.
(* test_DDScalar.py:565  ctx.u1 - ctx.u2 *)
Example test_06 : forallb (fun c => agrees c (apply_b F c Bsub (num c u1) (num c u2)) [(fl (3474855313482241) (-53)); (fl (6996582470976021) (-52)); (fl (-3213558783984823) (-52)); (fl (8798022321924229) (-54)); (fl (-5915718560407111) (-54)); (fl (4186336303496841) (-54))]) types2 = true.
Proof. vm_compute. reflexivity. Qed.
(* test_DDScalar.py:568  ctx.u1 - 3 *)
Example test_07 : forallb (fun c => agrees c (apply_u F c (Usubs (fl (3) (0))) (num c u1)) [(fl (-5404319552844595) (-52)); (fl (5404319552844595) (-52)); (fl (-3242591731706757) (-53)); (fl (3602879701896397) (-53)); (fl (-1080863910568919) (-52)); (fl (5188146770730811) (-55))]) types2 = true.
Proof. vm_compute. reflexivity. Qed.
(* test_DDScalar.py:571  3 - ctx.u1 *)
Example test_08 : forallb (fun c => agrees c (apply_u F c (Ussub (fl (3) (0))) (num c u1)) [(fl (5404319552844595) (-52)); (fl (-5404319552844595) (-52)); (fl (3242591731706757) (-53)); (fl (-3602879701896397) (-53)); (fl (1080863910568919) (-52)); (fl (-5188146770730811) (-55))]) types2 = true.
Proof. vm_compute. reflexivity. Qed.
(* test_DDScalar.py:575  ctx.u1; r -= ctx.u2 *)
Example test_09 : forallb (fun c => agrees c (sub_assign F c (num c u1) (Some (num c u2))) [(fl (3474855313482241) (-53)); (fl (6996582470976021) (-52)); (fl (-3213558783984823) (-52)); (fl (8798022321924229) (-54)); (fl (-5915718560407111) (-54)); (fl (4186336303496841) (-54))]) types2 = true.
Proof. vm_compute. reflexivity. Qed.
(* test_DDScalar.py:579  ctx.u1; r -= 3 *)
Example test_10 : forallb (fun c => agrees c (apply_u F c (Usubs (fl (3) (0))) (num c u1)) [(fl (-5404319552844595) (-52)); (fl (5404319552844595) (-52)); (fl (-3242591731706757) (-53)); (fl (3602879701896397) (-53)); (fl (-1080863910568919) (-52)); (fl (5188146770730811) (-55))]) types2 = true.
Proof. vm_compute. reflexivity. Qed.
(* test_DDScalar.py:585  ctx.u1 * ctx.u2 *)
Example test_11 : forallb (fun c => agrees c (apply_b F c Bmul (num c u1) (num c u2)) [(fl (5732146505273193) (-51)); (fl (1194197188598581) (-50)); (fl (1146429301054643) (-53)); (fl (-1990328647664303) (-52)); (fl (6687504256152053) (-54)); (fl (-945804173370079) (-52))]) types2 = true.
Proof. vm_compute. reflexivity. Qed.
(* test_DDScalar.py:588  ctx.u1 * 3 *)
Example test_12 : forallb (fun c => agrees c (apply_u F c (Umuls (fl (3) (0))) (num c u1)) [(fl (3039929748475085) (-49)); (fl (8106479329266893) (-51)); (fl (-607985949695017) (-49)); (fl (5404319552844595) (-52)); (fl (-3242591731706757) (-52)); (fl (7782220156096217) (-54))]) types2 = true.
Proof. vm_compute. reflexivity. Qed.
(* test_DDScalar.py:591  3 * ctx.u1 *)
Example test_13 : forallb (fun c => agrees c (apply_u F c (Usmul (fl (3) (0))) (num c u1)) [(fl (3039929748475085) (-49)); (fl (8106479329266893) (-51)); (fl (-607985949695017) (-49)); (fl (5404319552844595) (-52)); (fl (-3242591731706757) (-52)); (fl (7782220156096217) (-54))]) types2 = true.
Proof. vm_compute. reflexivity. Qed.
(* test_DDScalar.py:595  ctx.u1; r *= ctx.u2 *)
Example test_14 : forallb (fun c => agrees c (mul_assign F c (num c u1) (Some (num c u2))) [(fl (5732146505273193) (-51)); (fl (1194197188598581) (-50)); (fl (1146429301054643) (-53)); (fl (-1990328647664303) (-52)); (fl (6687504256152053) (-54)); (fl (-945804173370079) (-52))]) types2 = true.
Proof. vm_compute. reflexivity. Qed.
(* test_DDScalar.py:599  ctx.u1; r *= 3 *)
Example test_15 : forallb (fun c => agrees c (muls_assign F (num c u1) (SVal (fl (3) (0)))) [(fl (3039929748475085) (-49)); (fl (8106479329266893) (-51)); (fl (-607985949695017) (-49)); (fl (5404319552844595) (-52)); (fl (-3242591731706757) (-52)); (fl (7782220156096217) (-54))]) types2 = true.
Proof. vm_compute. reflexivity. Qed.
(* test_DDScalar.py:605  ctx.u1 / ctx.u2 *)
Example test_16 : forallb (fun c => agrees c (apply_b F c Bdiv (num c u1) (num c u2)) [(fl (5732146505273215) (-52)); (fl (5254467629833747) (-52)); (fl (-644866481843235) (-50)); (fl (4259303306001609) (-52)); (fl (-6162057493168687) (-53)); (fl (4213127681375797) (-53))]) types2 = true.
Proof. vm_compute. reflexivity. Qed.
(* test_DDScalar.py:608  ctx.u1 / 3 *)
Example test_17 : forallb (fun c => agrees c (apply_u F c (Udivs (fl (3) (0))) (num c u1)) [(fl (5404319552844595) (-53)); (fl (3602879701896397) (-53)); (fl (-1080863910568919) (-53)); (fl (4803839602528517) (-55)); (fl (-5764607523034235) (-56)); (fl (3458764513820541) (-56))]) types2 = true.
Proof. vm_compute. reflexivity. Qed.
(* test_DDScalar.py:611  3 / ctx.u1 *)
Example test_18 : forallb (fun c => agrees c (apply_u F c (Usdiv (fl (3) (0))) (num c u1)) [(fl (3752999689475421) (-51)); (fl (-5003999585967213) (-52)); (fl (6004799503160655) (-54)); (fl (5003999585967213) (-52)); (fl (-2001599834386885) (-53)); (fl (0) (0))]) types2 = true.
Proof. vm_compute. reflexivity. Qed.
(* test_DDScalar.py:615  ctx.u1; r /= ctx.u2 *)
Example test_19 : forallb (fun c => agrees c (div_assign F c (num c u1) (Some (num c u2))) [(fl (5732146505273215) (-52)); (fl (5254467629833747) (-52)); (fl (-644866481843235) (-50)); (fl (4259303306001609) (-52)); (fl (-6162057493168687) (-53)); (fl (4213127681375797) (-53))]) types2 = true.
Proof. vm_compute. reflexivity. Qed.
(* test_DDScalar.py:619  ctx.u1; r /= 3 *)
Example test_20 : forallb (fun c => agrees c (divs_assign F (num c u1) (SVal (fl (3) (0)))) [(fl (5404319552844595) (-53)); (fl (3602879701896397) (-53)); (fl (-1080863910568919) (-53)); (fl (4803839602528517) (-55)); (fl (-5764607523034235) (-56)); (fl (3458764513820541) (-56))]) types2 = true.
Proof. vm_compute. reflexivity. Qed.
(* test_DDScalar.py:625  np.reciprocal(ctx.u1) *)
Example test_21 : forallb (fun c => agrees c (apply_u F c Ureciprocal (num c u1)) [(fl (2501999792983611) (-52)); (fl (-1667999861989071) (-52)); (fl (2001599834386885) (-54)); (fl (1667999861989071) (-52)); (fl (-2668799779182517) (-55)); (fl (0) (0))]) types2 = true.
Proof. vm_compute. reflexivity. Qed.
(* test_DDScalar.py:631  np.sqrt(ctx.u1) *)
Example test_22 : forallb (fun c => agrees c (apply_u F c Usqrt (num c u1)) [(fl (3021106473072937) (-51)); (fl (4028141964097261) (-53)); (fl (-4833770356916699) (-55)); (fl (0) (0)); (fl (-3222513571277809) (-56)); (fl (5800524428300053) (-57))]) types2 = true.
Proof. vm_compute. reflexivity. Qed.
(* test_DDScalar.py:637  np.cbrt(ctx.u1) *)
Example test_23 : forallb (fun c => agrees c (apply_u F c Ucbrt (num c u1)) [(fl (2739180264085645) (-51)); (fl (4869653802818923) (-54)); (fl (-5843584563382707) (-56)); (fl (-8657162316122529) (-58)); (fl (-2597148694836759) (-57)); (fl (6233156867608227) (-58))]) types2 = true.
Proof. vm_compute. reflexivity. Qed.
(* test_DDScalar.py:646  np.cosh(ctx.u1) *)
Example test_24 : forallb (fun c => agrees c (apply_u F c Ucosh (num c u1)) [(fl (3498703759731567) (-50)); (fl (248444531766127) (-46)); (fl (-1192533752477403) (-50)); (fl (1590792729191533) (-48)); (fl (-1153231262927819) (-49)); (fl (3721782033008697) (-52))]) types2 = true.
Proof. vm_compute. reflexivity. Qed.
(* test_DDScalar.py:652  np.sinh(ctx.u1) *)
Example test_25 : forallb (fun c => agrees c (apply_u F c Usinh (num c u1)) [(fl (6625187513763379) (-51)); (fl (1049611127919469) (-48)); (fl (-5038133414013469) (-52)); (fl (6169616513802263) (-50)); (fl (-4541458810616935) (-51)); (fl (1866250984586423) (-51))]) types2 = true.
Proof. vm_compute. reflexivity. Qed.
(* test_DDScalar.py:658  np.tanh(ctx.u1) *)
Example test_26 : forallb (fun c => agrees c (apply_u F c Utanh (num c u1)) [(fl (8528070413293195) (-53)); (fl (4477300365401417) (-55)); (fl (-5372760438481715) (-57)); (fl (-4340745161170135) (-54)); (fl (8626868240647757) (-57)); (fl (-3027016768995957) (-58))]) types2 = true.
Proof. vm_compute. reflexivity. Qed.
(* test_DDScalar.py:664  np.arccosh(ctx.u6) *)
Example test_27 : forallb (fun c => agrees c (apply_u F c Uacosh (num c u6)) [(fl (7845619973452387) (-52)); (fl (379329322840383) (-48)); (fl (-1820780749633843) (-52)); (fl (7097459955926679) (-57)); (fl (-2693862414525709) (-54)); (fl (4529566648129567) (-55))]) types2 = true.
Proof. vm_compute. reflexivity. Qed.
(* test_DDScalar.py:670  np.arcsinh(ctx.u7) *)
Example test_28 : forallb (fun c => agrees c (apply_u F c Uasinh (num c u7)) [(fl (8340195721832483) (-52)); (fl (2435422852773097) (-51)); (fl (-5845014846655451) (-54)); (fl (5564489136390089) (-53)); (fl (-5287031764052533) (-54)); (fl (5510224997093707) (-55))]) types2 = true.
Proof. vm_compute. reflexivity. Qed.
(* test_DDScalar.py:676  np.hypot(ctx.u7, ctx.u8) *)
Example test_29 : forallb (fun c => agrees c (apply_b F c Bhypot (num c u7) (num c u8)) [(fl (914374880846879) (-48)); (fl (7686613375080699) (-51)); (fl (-2305984012524197) (-51)); (fl (1573734656217261) (-48)); (fl (-2272812256214743) (-50)); (fl (1824884156233689) (-51))]) types2 = true.
Proof. vm_compute. reflexivity. Qed.
(* test_DDScalar.py:679  hj.hypot(ctx.u7, ctx.u8) *)
Example test_30 : forallb (fun c => agrees c (apply_b F c Bhypot (num c u7) (num c u8)) [(fl (914374880846879) (-48)); (fl (7686613375080699) (-51)); (fl (-2305984012524197) (-51)); (fl (1573734656217261) (-48)); (fl (-2272812256214743) (-50)); (fl (1824884156233689) (-51))]) types2 = true.
Proof. vm_compute. reflexivity. Qed.
(* test_DDScalar.py:685  ctx.u7.hypot(ctx.u8, ctx.u9) *)
Example test_31 : forallb (fun c => agrees c (hypot3 F c (num c u7) (num c u8) (num c u9)) [(fl (3826872530384065) (-50)); (fl (4335705839855123) (-50)); (fl (-1731401960846573) (-54)); (fl (951743256256707) (-47)); (fl (6978954461027859) (-54)); (fl (3092563950869765) (-49))]) types2 = true.
Proof. vm_compute. reflexivity. Qed.
(* test_DDScalar.py:688  hj.hypot(ctx.u7, ctx.u8, ctx.u9) *)
Example test_32 : forallb (fun c => agrees c (hypot3 F c (num c u7) (num c u8) (num c u9)) [(fl (3826872530384065) (-50)); (fl (4335705839855123) (-50)); (fl (-1731401960846573) (-54)); (fl (951743256256707) (-47)); (fl (6978954461027859) (-54)); (fl (3092563950869765) (-49))]) types2 = true.
Proof. vm_compute. reflexivity. Qed.
(* test_DDScalar.py:694  np.arctanh(ctx.u8) *)
Example test_33 : forallb (fun c => agrees c (apply_u F c Uatanh (num c u8)) [(fl (8106479329266893) (-52)); (fl (5404319552844595) (-52)); (fl (-3242591731706757) (-53)); (fl (3602879701896397) (-53)); (fl (-1080863910568919) (-52)); (fl (5188146770730811) (-55))]) types2 = true.
Proof. vm_compute. reflexivity. Qed.
(* test_DDScalar.py:700  np.exp(ctx.u1) *)
Example test_34 : forallb (fun c => agrees c (apply_u F c Uexp (num c u1)) [(fl (6811297516613257) (-50)); (fl (2043389254983977) (-48)); (fl (-1226033552990385) (-49)); (fl (6266393715284181) (-49)); (fl (-2288595965582053) (-49)); (fl (3727142001090767) (-51))]) types2 = true.
Proof. vm_compute. reflexivity. Qed.
(* test_DDScalar.py:706  np.log(ctx.u1) *)
Example test_35 : forallb (fun c => agrees c (apply_u F c Ulog (num c u1)) [(fl (5294311610053059) (-53)); (fl (750599937895083) (-50)); (fl (-3602879701896397) (-54)); (fl (-2001599834386885) (-53)); (fl (0) (0)); (fl (5764607523034235) (-57))]) types2 = true.
Proof. vm_compute. reflexivity. Qed.
(* test_DDScalar.py:709  ctx.u1.log(2) *)
Example test_36 : forallb (fun c => agrees c (apply_u F c (Ulogb (fl (1) (1))) (num c u1)) [(fl (1909519276186103) (-51)); (fl (8663094464742401) (-53)); (fl (-1299464169711361) (-52)); (fl (-5775396309828261) (-54)); (fl (0) (0)); (fl (1039571335769087) (-54))]) types2 = true.
Proof. vm_compute. reflexivity. Qed.
(* test_DDScalar.py:715  np.log2(ctx.u1) *)
Example test_37 : forallb (fun c => agrees c (apply_u F c Ulog2 (num c u1)) [(fl (1909519276186103) (-51)); (fl (8663094464742401) (-53)); (fl (-1299464169711361) (-52)); (fl (-5775396309828261) (-54)); (fl (0) (0)); (fl (1039571335769087) (-54))]) types2 = true.
Proof. vm_compute. reflexivity. Qed.
(* test_DDScalar.py:721  np.log10(ctx.u1) *)
Example test_38 : forallb (fun c => agrees c (apply_u F c Ulog10 (num c u1)) [(fl (574822579430591) (-51)); (fl (5215702578316129) (-54)); (fl (-6258843093979355) (-56)); (fl (-6954270104421503) (-56)); (fl (0) (0)); (fl (5007074475183489) (-58))]) types2 = true.
Proof. vm_compute. reflexivity. Qed.
(* test.cpp:33  -dd1 *)
Example test_39 : forallb (fun c => agrees c (apply_u F c Uneg (num c dd1)) [(fl (-3) (0)); (fl (-1) (0)); (fl (-3) (1)); (fl (-1) (2)); (fl (0) (0)); (fl (-5) (0)); (fl (-9) (0)); (fl (-1) (1)); (fl (-7) (0)); (fl (-1) (3))]) types3 = true.
Proof. vm_compute. reflexivity. Qed.
(* test.cpp:49  dd1 + dd2 *)
Example test_40 : forallb (fun c => agrees c (apply_b F c Badd (num c dd1) (num c dd2)) [(fl (7) (0)); (fl (1) (3)); (fl (7) (0)); (fl (1) (2)); (fl (3) (1)); (fl (13) (0)); (fl (11) (0)); (fl (11) (0)); (fl (3) (2)); (fl (11) (0))]) types3 = true.
Proof. vm_compute. reflexivity. Qed.
(* test.cpp:62  dd1 + 3.5 *)
Example test_41 : forallb (fun c => agrees c (apply_u F c (Uadds (fl (7) (-1))) (num c dd1)) [(fl (13) (-1)); (fl (1) (0)); (fl (3) (1)); (fl (1) (2)); (fl (0) (0)); (fl (5) (0)); (fl (9) (0)); (fl (1) (1)); (fl (7) (0)); (fl (1) (3))]) types3 = true.
Proof. vm_compute. reflexivity. Qed.
(* test.cpp:75  3.5 + dd1 *)
Example test_42 : forallb (fun c => agrees c (apply_u F c (Usadd (fl (7) (-1))) (num c dd1)) [(fl (13) (-1)); (fl (1) (0)); (fl (3) (1)); (fl (1) (2)); (fl (0) (0)); (fl (5) (0)); (fl (9) (0)); (fl (1) (1)); (fl (7) (0)); (fl (1) (3))]) types3 = true.
Proof. vm_compute. reflexivity. Qed.
(* test.cpp:92  dd1; r1 += dd2 *)
Example test_43 : forallb (fun c => agrees c (add_assign F c (num c dd1) (Some (num c dd2))) [(fl (7) (0)); (fl (1) (3)); (fl (7) (0)); (fl (1) (2)); (fl (3) (1)); (fl (13) (0)); (fl (11) (0)); (fl (11) (0)); (fl (3) (2)); (fl (11) (0))]) types3 = true.
Proof. vm_compute. reflexivity. Qed.
(* test.cpp:106  dd1; r2 += 3.5 *)
Example test_44 : forallb (fun c => agrees c (adds_assign F (num c dd1) (SVal (fl (7) (-1)))) [(fl (13) (-1)); (fl (1) (0)); (fl (3) (1)); (fl (1) (2)); (fl (0) (0)); (fl (5) (0)); (fl (9) (0)); (fl (1) (1)); (fl (7) (0)); (fl (1) (3))]) types3 = true.
Proof. vm_compute. reflexivity. Qed.
(* test.cpp:122  dd1 - dd2 *)
Example test_45 : forallb (fun c => agrees c (apply_b F c Bsub (num c dd1) (num c dd2)) [(fl (-1) (0)); (fl (-3) (1)); (fl (5) (0)); (fl (1) (2)); (fl (-3) (1)); (fl (-3) (0)); (fl (7) (0)); (fl (-7) (0)); (fl (1) (1)); (fl (5) (0))]) types3 = true.
Proof. vm_compute. reflexivity. Qed.
(* test.cpp:135  dd1 - 3.5 *)
Example test_46 : forallb (fun c => agrees c (apply_u F c (Usubs (fl (7) (-1))) (num c dd1)) [(fl (-1) (-1)); (fl (1) (0)); (fl (3) (1)); (fl (1) (2)); (fl (0) (0)); (fl (5) (0)); (fl (9) (0)); (fl (1) (1)); (fl (7) (0)); (fl (1) (3))]) types3 = true.
Proof. vm_compute. reflexivity. Qed.
(* test.cpp:148  3.5 - dd1 *)
Example test_47 : forallb (fun c => agrees c (apply_u F c (Ussub (fl (7) (-1))) (num c dd1)) [(fl (1) (-1)); (fl (-1) (0)); (fl (-3) (1)); (fl (-1) (2)); (fl (0) (0)); (fl (-5) (0)); (fl (-9) (0)); (fl (-1) (1)); (fl (-7) (0)); (fl (-1) (3))]) types3 = true.
Proof. vm_compute. reflexivity. Qed.
(* test.cpp:165  dd1; r1 -= dd2 *)
Example test_48 : forallb (fun c => agrees c (sub_assign F c (num c dd1) (Some (num c dd2))) [(fl (-1) (0)); (fl (-3) (1)); (fl (5) (0)); (fl (1) (2)); (fl (-3) (1)); (fl (-3) (0)); (fl (7) (0)); (fl (-7) (0)); (fl (1) (1)); (fl (5) (0))]) types3 = true.
Proof. vm_compute. reflexivity. Qed.
(* test.cpp:179  dd1; r2 -= 3.5 *)
Example test_49 : forallb (fun c => agrees c (subs_assign F (num c dd1) (SVal (fl (7) (-1)))) [(fl (-1) (-1)); (fl (1) (0)); (fl (3) (1)); (fl (1) (2)); (fl (0) (0)); (fl (5) (0)); (fl (9) (0)); (fl (1) (1)); (fl (7) (0)); (fl (1) (3))]) types3 = true.
Proof. vm_compute. reflexivity. Qed.
(* test.cpp:195  dd1 * dd2 *)
Example test_50 : forallb (fun c => agrees c (apply_b F c Bmul (num c dd1) (num c dd2)) [(fl (3) (2)); (fl (25) (0)); (fl (27) (0)); (fl (1) (4)); (fl (1) (5)); (fl (87) (0)); (fl (35) (1)); (fl (47) (0)); (fl (47) (0)); (fl (41) (0))]) types3 = true.
Proof. vm_compute. reflexivity. Qed.
(* test.cpp:212  dd1; r1 *= dd2 *)
Example test_51 : forallb (fun c => agrees c (mul_assign F c (num c dd1) (Some (num c dd2))) [(fl (3) (2)); (fl (25) (0)); (fl (27) (0)); (fl (1) (4)); (fl (1) (5)); (fl (87) (0)); (fl (35) (1)); (fl (47) (0)); (fl (47) (0)); (fl (41) (0))]) types3 = true.
Proof. vm_compute. reflexivity. Qed.
(* test.cpp:228  dd1 / dd2 *)
Example test_52 : forallb (fun c => agrees c (apply_b F c Bdiv (num c dd1) (num c dd2)) [(fl (3) (-2)); (fl (-17) (-4)); (fl (21) (-4)); (fl (1) (0)); (fl (83) (-5)); (fl (-73) (-5)); (fl (1) (-3)); (fl (-59) (-5)); (fl (9) (-4)); (fl (23) (-4))]) types3 = true.
Proof. vm_compute. reflexivity. Qed.
(* test.cpp:245  dd1; r1 /= dd2 *)
Example test_53 : forallb (fun c => agrees c (div_assign F c (num c dd1) (Some (num c dd2))) [(fl (3) (-2)); (fl (-17) (-4)); (fl (21) (-4)); (fl (1) (0)); (fl (83) (-5)); (fl (-73) (-5)); (fl (1) (-3)); (fl (-59) (-5)); (fl (9) (-4)); (fl (23) (-4))]) types3 = true.
Proof. vm_compute. reflexivity. Qed.
(* test.cpp:263  pow(dd1, 3.5) *)
Example test_54 : forallb (fun c => agrees c (apply_u F c (Upow (fl (7) (-1))) (num c dd1)) [(fl (411352560609291) (-43)); (fl (959822641421679) (-44)); (fl (2879467924265037) (-43)); (fl (959822641421679) (-42)); (fl (1599704402369465) (-45)); (fl (4799113207108395) (-43)); (fl (1479726572191755) (-41)); (fl (959822641421679) (-39)); (fl (6478802829596333) (-42)); (fl (319940880473893) (-38))]) types3 = true.
Proof. vm_compute. reflexivity. Qed.
(* test.cpp:281  sqrt(dd1) *)
Example test_55 : forallb (fun c => agrees c (apply_u F c Usqrt (num c dd1)) [(fl (3900231685776981) (-51)); (fl (5200308914369309) (-54)); (fl (7800463371553963) (-52)); (fl (5200308914369309) (-52)); (fl (-3466872609579539) (-56)); (fl (5200308914369309) (-52)); (fl (2708494226234015) (-50)); (fl (-5200308914369309) (-52)); (fl (7800463371553963) (-53)); (fl (6933745219159079) (-52))]) types3 = true.
Proof. vm_compute. reflexivity. Qed.
(* test.cpp:299  cos(dd1) *)
Example test_56 : forallb (fun c => agrees c (apply_u F c Ucos (num c dd1)) [(fl (-4458529838789353) (-52)); (fl (-5084384125703515) (-55)); (fl (-953322023569409) (-50)); (fl (-5084384125703515) (-53)); (fl (4458529838789353) (-52)); (fl (736669967317857) (-47)); (fl (6057093606870479) (-51)); (fl (4976124317655963) (-47)); (fl (6409742501309619) (-48)); (fl (8281511661865767) (-49))]) types3 = true.
Proof. vm_compute. reflexivity. Qed.
(* test.cpp:317  dd1.sin() *)
Example test_57 : forallb (fun c => agrees c (apply_u F c Usin (num c dd1)) [(fl (5084384125703515) (-55)); (fl (-4458529838789353) (-52)); (fl (-3343897379092015) (-49)); (fl (-4458529838789353) (-50)); (fl (-5084384125703515) (-55)); (fl (-1631621080514025) (-48)); (fl (-1333405019123623) (-47)); (fl (-3974598530405565) (-49)); (fl (-2903928828039751) (-48)); (fl (-89525404222113) (-43))]) types3 = true.
Proof. vm_compute. reflexivity. Qed.
(* test.cpp:335  tan(dd1) *)
Example test_58 : forallb (fun c => agrees c (apply_u F c Utan (num c dd1)) [(fl (-5135780466178159) (-55)); (fl (2297555298150379) (-51)); (fl (6892665894451137) (-50)); (fl (2297555298150379) (-49)); (fl (-5240137044373251) (-54)); (fl (7557673707471957) (-51)); (fl (282155143143231) (-45)); (fl (-2373188262922359) (-48)); (fl (1449903815731605) (-53)); (fl (3950084148228265) (-50))]) types3 = true.
Proof. vm_compute. reflexivity. Qed.
(* test.cpp:353  acos(dd3) *)
Example test_59 : forallb (fun c => agrees c (apply_u F c Uacos (num c dd3)) [(fl (5702024028942169) (-52)); (fl (-1888422080015589) (-54)); (fl (-1888422080015589) (-51)); (fl (-1888422080015589) (-53)); (fl (-2376091518261373) (-52)); (fl (-6858499971924749) (-53)); (fl (-8560155033037697) (-53)); (fl (-5769025694992679) (-53)); (fl (-3081655811893571) (-52)); (fl (-7968726139846003) (-59))]) types3 = true.
Proof. vm_compute. reflexivity. Qed.
(* test.cpp:371  asin(dd3) *)
Example test_60 : forallb (fun c => agrees c (apply_u F c Uasin (num c dd3)) [(fl (5488854892345087) (-54)); (fl (1888422080015589) (-54)); (fl (1888422080015589) (-51)); (fl (1888422080015589) (-53)); (fl (2376091518261373) (-52)); (fl (6858499971924749) (-53)); (fl (8560155033037697) (-53)); (fl (2884512847496339) (-52)); (fl (3081655811893571) (-52)); (fl (7968726139846001) (-59))]) types3 = true.
Proof. vm_compute. reflexivity. Qed.
(* test.cpp:389  atan(dd3) *)
Example test_61 : forallb (fun c => agrees c (apply_u F c Uatan (num c dd3)) [(fl (2625209422010243) (-53)); (fl (826348555480825) (-53)); (fl (826348555480825) (-50)); (fl (826348555480825) (-52)); (fl (8172511401911277) (-54)); (fl (169391977399309) (-48)); (fl (7346162846430453) (-53)); (fl (788442658440421) (-54)); (fl (4230298109709177) (-53)); (fl (-2911172892703089) (-57))]) types3 = true.
Proof. vm_compute. reflexivity. Qed.
(* test.cpp:407  atan2(dd1, dd2) *)
Example test_62 : forallb (fun c => agrees c (apply_b F c Batan2 (num c dd1) (num c dd2)) [(fl (5796142707547873) (-53)); (fl (-6124895493223875) (-53)); (fl (7566047373982433) (-53)); (fl (5764607523034235) (-53)); (fl (8704557359781695) (-53)); (fl (-2716571295229883) (-52)); (fl (6600475613874199) (-53)); (fl (-5040428702953059) (-51)); (fl (-4020813747316379) (-53)); (fl (2752600092248847) (-53))]) types3 = true.
Proof. vm_compute. reflexivity. Qed.
Definition s1 : ss b64 := mks (fl (3) (0)) [("x"%string, (fl (1) (0))); ("y"%string, (fl (3) (1))); ("z"%string, (fl (1) (2)))].
Definition s2 : ss b64 := mks (fl (1) (2)) [("x"%string, (fl (7) (0))); ("y"%string, (fl (1) (0)))].
Definition s3 : ss b64 := mks (fl (5404319552844595) (-54)) [("x"%string, (fl (3602879701896397) (-55))); ("y"%string, (fl (3602879701896397) (-52))); ("z"%string, (fl (3602879701896397) (-54)))].
(* test.cpp:544  -s1 *)
Example test_s00 : let r := s_apply_u F Uneg s1 in
  close (s_get_f r) (fl (-3) (0)) && close (s_get_d F r "x") (fl (-1) (0)) && close (s_get_d F r "y") (fl (-3) (1)) && close (s_get_d F r "z") (fl (-1) (2)) = true.
Proof. vm_compute. reflexivity. Qed.
(* test.cpp:554  s1 + s2 *)
Example test_s01 : let r := s_apply_b F Badd s1 s2 in
  close (s_get_f r) (fl (7) (0)) && close (s_get_d F r "x") (fl (1) (3)) && close (s_get_d F r "y") (fl (7) (0)) && close (s_get_d F r "z") (fl (1) (2)) = true.
Proof. vm_compute. reflexivity. Qed.
(* test.cpp:561  s1 + 3.5 *)
Example test_s02 : let r := s_apply_u F (Uadds (fl (7) (-1))) s1 in
  close (s_get_f r) (fl (13) (-1)) && close (s_get_d F r "x") (fl (1) (0)) && close (s_get_d F r "y") (fl (3) (1)) && close (s_get_d F r "z") (fl (1) (2)) = true.
Proof. vm_compute. reflexivity. Qed.
(* test.cpp:568  3.5 + s1 *)
Example test_s03 : let r := s_apply_u F (Usadd (fl (7) (-1))) s1 in
  close (s_get_f r) (fl (13) (-1)) && close (s_get_d F r "x") (fl (1) (0)) && close (s_get_d F r "y") (fl (3) (1)) && close (s_get_d F r "z") (fl (1) (2)) = true.
Proof. vm_compute. reflexivity. Qed.
(* test.cpp:579  r1 += s2; *)
Example test_s04 : let r := s_add_assign F s1 (Some s2) in
  close (s_get_f r) (fl (7) (0)) && close (s_get_d F r "x") (fl (1) (3)) && close (s_get_d F r "y") (fl (7) (0)) && close (s_get_d F r "z") (fl (1) (2)) = true.
Proof. vm_compute. reflexivity. Qed.
(* test.cpp:587  r2 += 3.5; *)
Example test_s05 : let r := s_adds_assign F s1 (fl (7) (-1)) in
  close (s_get_f r) (fl (13) (-1)) && close (s_get_d F r "x") (fl (1) (0)) && close (s_get_d F r "y") (fl (3) (1)) && close (s_get_d F r "z") (fl (1) (2)) = true.
Proof. vm_compute. reflexivity. Qed.
(* test.cpp:597  s1 - s2 *)
Example test_s06 : let r := s_apply_b F Bsub s1 s2 in
  close (s_get_f r) (fl (-1) (0)) && close (s_get_d F r "x") (fl (-3) (1)) && close (s_get_d F r "y") (fl (5) (0)) && close (s_get_d F r "z") (fl (1) (2)) = true.
Proof. vm_compute. reflexivity. Qed.
(* test.cpp:604  s1 - 3.5 *)
Example test_s07 : let r := s_apply_u F (Usubs (fl (7) (-1))) s1 in
  close (s_get_f r) (fl (-1) (-1)) && close (s_get_d F r "x") (fl (1) (0)) && close (s_get_d F r "y") (fl (3) (1)) && close (s_get_d F r "z") (fl (1) (2)) = true.
Proof. vm_compute. reflexivity. Qed.
(* test.cpp:611  3.5 - s1 *)
Example test_s08 : let r := s_apply_u F (Ussub (fl (7) (-1))) s1 in
  close (s_get_f r) (fl (1) (-1)) && close (s_get_d F r "x") (fl (-1) (0)) && close (s_get_d F r "y") (fl (-3) (1)) && close (s_get_d F r "z") (fl (-1) (2)) = true.
Proof. vm_compute. reflexivity. Qed.
(* test.cpp:622  r1 -= s2; *)
Example test_s09 : let r := s_sub_assign F s1 (Some s2) in
  close (s_get_f r) (fl (-1) (0)) && close (s_get_d F r "x") (fl (-3) (1)) && close (s_get_d F r "y") (fl (5) (0)) && close (s_get_d F r "z") (fl (1) (2)) = true.
Proof. vm_compute. reflexivity. Qed.
(* test.cpp:630  r2 -= 3.5; *)
Example test_s10 : let r := s_subs_assign F s1 (fl (7) (-1)) in
  close (s_get_f r) (fl (-1) (-1)) && close (s_get_d F r "x") (fl (1) (0)) && close (s_get_d F r "y") (fl (3) (1)) && close (s_get_d F r "z") (fl (1) (2)) = true.
Proof. vm_compute. reflexivity. Qed.
(* test.cpp:640  s1 * s2 *)
Example test_s11 : let r := s_apply_b F Bmul s1 s2 in
  close (s_get_f r) (fl (3) (2)) && close (s_get_d F r "x") (fl (25) (0)) && close (s_get_d F r "y") (fl (27) (0)) && close (s_get_d F r "z") (fl (1) (4)) = true.
Proof. vm_compute. reflexivity. Qed.
(* test.cpp:651  r1 *= s2; *)
Example test_s12 : let r := s_mul_assign F s1 (Some s2) in
  close (s_get_f r) (fl (3) (2)) && close (s_get_d F r "x") (fl (25) (0)) && close (s_get_d F r "y") (fl (27) (0)) && close (s_get_d F r "z") (fl (1) (4)) = true.
Proof. vm_compute. reflexivity. Qed.
(* test.cpp:661  s1 / s2 *)
Example test_s13 : let r := s_apply_b F Bdiv s1 s2 in
  close (s_get_f r) (fl (3) (-2)) && close (s_get_d F r "x") (fl (-17) (-4)) && close (s_get_d F r "y") (fl (21) (-4)) && close (s_get_d F r "z") (fl (1) (0)) = true.
Proof. vm_compute. reflexivity. Qed.
(* test.cpp:672  r1 /= s2; *)
Example test_s14 : let r := s_div_assign F s1 (Some s2) in
  close (s_get_f r) (fl (3) (-2)) && close (s_get_d F r "x") (fl (-17) (-4)) && close (s_get_d F r "y") (fl (21) (-4)) && close (s_get_d F r "z") (fl (1) (0)) = true.
Proof. vm_compute. reflexivity. Qed.
(* test.cpp:684  pow(s1, 3.5) *)
Example test_s15 : let r := s_apply_u F (Upow (fl (7) (-1))) s1 in
  close (s_get_f r) (fl (411352560609291) (-43)) && close (s_get_d F r "x") (fl (959822641421679) (-44)) && close (s_get_d F r "y") (fl (2879467924265037) (-43)) && close (s_get_d F r "z") (fl (959822641421679) (-42)) = true.
Proof. vm_compute. reflexivity. Qed.
(* test.cpp:696  sqrt(s1) *)
Example test_s16 : let r := s_apply_u F Usqrt s1 in
  close (s_get_f r) (fl (3900231685776981) (-51)) && close (s_get_d F r "x") (fl (5200308914369309) (-54)) && close (s_get_d F r "y") (fl (7800463371553963) (-52)) && close (s_get_d F r "z") (fl (5200308914369309) (-52)) = true.
Proof. vm_compute. reflexivity. Qed.
(* test.cpp:708  cos(s1) *)
Example test_s17 : let r := s_apply_u F Ucos s1 in
  close (s_get_f r) (fl (-4458529838789353) (-52)) && close (s_get_d F r "x") (fl (-5084384125703515) (-55)) && close (s_get_d F r "y") (fl (-953322023569409) (-50)) && close (s_get_d F r "z") (fl (-5084384125703515) (-53)) = true.
Proof. vm_compute. reflexivity. Qed.
(* test.cpp:720  s1.sin() *)
Example test_s18 : let r := s_apply_u F Usin s1 in
  close (s_get_f r) (fl (5084384125703515) (-55)) && close (s_get_d F r "x") (fl (-4458529838789353) (-52)) && close (s_get_d F r "y") (fl (-3343897379092015) (-49)) && close (s_get_d F r "z") (fl (-4458529838789353) (-50)) = true.
Proof. vm_compute. reflexivity. Qed.
(* test.cpp:732  tan(s1) *)
Example test_s19 : let r := s_apply_u F Utan s1 in
  close (s_get_f r) (fl (-5135780466178159) (-55)) && close (s_get_d F r "x") (fl (2297555298150379) (-51)) && close (s_get_d F r "y") (fl (6892665894451137) (-50)) && close (s_get_d F r "z") (fl (2297555298150379) (-49)) = true.
Proof. vm_compute. reflexivity. Qed.

(** Tests transcribed by hand. *)
(* test.cpp:421-436 Dot, 438-477 Cross, 479-493 Norm (Eigen: sums of products, left to right) *)
Definition c3 : cfg := {| c_ord := 2; c_tsize := 3; c_exc := true; c_dbg := true |}.
Definition v1 := num c3 dd1. Definition v2 := num c3 dd2. Definition v3 := num c3 dd3.
Definition sum3 (a b d : res (dd b64)) : res (dd b64) :=
  bind a (fun a => bind b (fun b => bind d (fun d => bind (add F c3 a b) (fun s => add F c3 s d)))).
Definition det (a b d e : dd b64) : res (dd b64) :=
  bind (mul F c3 a e) (fun x => bind (mul F c3 b d) (fun y => sub F c3 x y)).
Definition tenths (l : list Z) : list b64 := map (fun z => b64_div (b64_of_Z z) (b64_of_Z 100)) l.
Example test_dot : agrees c3 (sum3 (mul F c3 v1 v3) (mul F c3 v2 v1) (mul F c3 v3 v2))
  (tenths [1410; 2810; 3470; 1860; 3890; 10290; 8160; 6430; 5940; 4590]) = true.
Proof. vm_compute. reflexivity. Qed.
Example test_cross : agrees c3 (det v2 v3 v1 v2) (tenths [1510; 5540; 380; -180; 14430; 7300; 1000; 6260; 3170; 2000]) = true /\
  agrees c3 (det v3 v1 v2 v3) (tenths [-1191; -2494; -2652; -1588; -3168; -8642; -6942; -4548; -4632; -4092]) = true /\
  agrees c3 (det v1 v2 v3 v1) (tenths [780; 350; 3250; 2320; -320; 3110; 5640; 7810; 8590; 7910]) = true.
Proof. vm_compute. repeat split. Qed.
Example test_norm : agrees c3 (bind (sum3 (mul F c3 v1 v1) (mul F c3 v2 v2) (mul F c3 v3 v3)) (apply_u F c3 Usqrt))
  (map (fun z => b64_div (b64_of_Z z) (b64_of_Z 10000000000))
    [50089919145; 61948592710; 44400151526; 24076700873; 71438962617; 65451754620; 48662132130; 119876946237; 109103606599; 92320222392]) = true.
Proof. vm_compute. reflexivity. Qed.

Notation d2 := (pycfg false 1 2). Notation e2 := (pycfg false 2 2). Notation dx := (pycfg false 1 (-1)). Notation ex := (pycfg false 2 (-1)).
(* test_DDScalar.py:92-128 *)
Example test_init_by_value :
  constant_n Zops d2 1 2 = Ok (mk 2 (full [1; 0; 0])) /\ constant_n Zops e2 1 2 = Ok (mk 2 (full [1; 0; 0; 0; 0; 0])) /\
  constant_n Zops dx 1 2 = Ok (mk 2 (full [1; 0; 0])) /\ constant_n Zops ex 1 2 = Ok (mk 2 (full [1; 0; 0; 0; 0; 0])) /\
  constant_n Zops d2 1 3 = Throw InvalidSize /\ constant_n Zops e2 1 3 = Throw InvalidSize /\
  constant Zops dx 1 = Ok (mk 0 (full [1])) /\ constant Zops ex 1 = Ok (mk 0 (full [1])).
Proof. vm_compute. repeat split. Qed.
(* 131-166 *)
Example test_init_by_data :
  create d2 (full [1; 2; 3]) = Ok (mk 2 (full [1; 2; 3])) /\ create e2 (full [1; 2; 3; 4; 5; 6]) = Ok (mk 2 (full [1; 2; 3; 4; 5; 6])) /\
  create dx (full [1; 2; 3]) = Ok (mk 2 (full [1; 2; 3])) /\ create ex (full [1; 2; 3; 4; 5; 6]) = Ok (mk 2 (full [1; 2; 3; 4; 5; 6])) /\
  create ex (full [1; 2; 3; 4; 5]) = Throw InvalidLength.
Proof. vm_compute. repeat split. Qed.
(* 169-246 *)
Example test_empty_zero :
  size d2 (empty Zops d2) = 2 /\ size e2 (empty Zops e2) = 2 /\ empty_n Zops d2 3 = Throw InvalidSize /\ empty_n Zops e2 3 = Throw InvalidSize /\
  size dx (empty Zops dx) = 0 /\ size ex (empty Zops ex) = 0 /\ (exists r, empty_n Zops dx 2 = Ok r /\ size dx r = 2) /\
  zero Zops d2 = mk 2 (full [0; 0; 0]) /\ zero Zops e2 = mk 2 (full [0; 0; 0; 0; 0; 0]) /\ zero_n Zops d2 2 = Ok (zero Zops d2) /\
  zero_n Zops d2 3 = Throw InvalidSize /\ zero_n Zops e2 3 = Throw InvalidSize /\ size dx (zero Zops dx) = 0 /\ size ex (zero Zops ex) = 0 /\
  (exists r, zero_n Zops ex 2 = Ok r /\ size ex r = 2).
Proof. vm_compute. repeat split; eexists; split; reflexivity. Qed.
(* 297-372 *)
Example test_variable :
  variable Zops d2 1 35 = Ok (mk 2 (full [35; 0; 1])) /\ variable Zops e2 1 35 = Ok (mk 2 (full [35; 0; 1; 0; 0; 0])) /\
  variable_n Zops d2 1 35 3 = Throw InvalidSize /\ variable_n Zops dx 1 35 2 = Ok (mk 2 (full [35; 0; 1])) /\
  variable_n Zops ex 1 35 2 = Ok (mk 2 (full [35; 0; 1; 0; 0; 0])) /\
  variables Zops d2 [3; 5] = Ok [mk 2 (full [3; 1; 0]); mk 2 (full [5; 0; 1])] /\
  variables Zops ex [3; 5] = Ok [mk 2 (full [3; 1; 0; 0; 0; 0]); mk 2 (full [5; 0; 1; 0; 0; 0])].
Proof. vm_compute. repeat split. Qed.
(* 378-466 *)
Example test_values :
  let u := mk 2 (full [1; 2; 3; 4; 5; 6]) in
  from_arrays Zops ex 1 (full [2; 3]) (mkmat 2 2 (full [4; 5; 5; 6])) = Ok u /\
  get_f u = Ok 1 /\ get_g e2 u 0 = Ok 2 /\ get_g e2 u 1 = Ok 3 /\ get_h e2 u 0 0 = Ok 4 /\ get_h e2 u 0 1 = Ok 5 /\ get_h e2 u 1 0 = Ok 5 /\
  get_h e2 u 1 1 = Ok 6 /\ set_h e2 u 1 0 2 = Ok (mk 2 (full [1; 2; 3; 4; 2; 6])) /\
  get_ag e2 u = Ok [2; 3] /\ hm Zops e2 u "full" = Ok (mkmat 2 2 (full [4; 5; 5; 6])) /\ hm Zops e2 u "zeros" = Ok (mkmat 2 2 (full [4; 5; 0; 6])) /\
  set_hm e2 u (mkmat 2 2 (full [3; 2; 0; 1])) = Ok (mk 2 (full [1; 2; 3; 3; 2; 1])).
Proof. vm_compute. repeat split. Qed.
(* 483-520 *)
Example test_eval : match eval F {| c_ord := 2; c_tsize := -1; c_exc := true; c_dbg := false |}
  (mk 3 (full (map b64_of_Z [1; 2; 3; 4; 5; 6; 7; 8; 9; 10]))) (map b64_of_Z [11; 12; 13]) with Ok v => Beqb v (fl 10063 (-1)) | _ => false end = true.
Proof. vm_compute. reflexivity. Qed.
Example test_pad :
  pad_right Zops ex (mk 2 (full [1; 2; 3; 4; 5; 6])) 5 = Ok (mk 5 (full [1; 2; 3; 0; 0; 0; 4; 5; 0; 0; 0; 6; 0; 0; 0; 0; 0; 0; 0; 0; 0])) /\
  pad_left Zops ex (mk 2 (full [1; 2; 3; 4; 5; 6])) 5 = Ok (mk 5 (full [1; 0; 0; 0; 2; 3; 0; 0; 0; 0; 0; 0; 0; 0; 0; 0; 0; 0; 4; 5; 6])) /\
  pad_right Zops dx (mk 2 (full [1; 2; 3])) 5 = Ok (mk 5 (full [1; 2; 3; 0; 0; 0])) /\
  pad_left Zops dx (mk 2 (full [1; 2; 3])) 5 = Ok (mk 5 (full [1; 0; 0; 0; 2; 3])).
Proof. vm_compute. repeat split. Qed.
(* test_SScalar.py:18-41; test.cpp:499-545 *)
Example test_sscalar : let x := mks (fl 3 (-1)) [("x"%string, fl 2 0); ("y"%string, fl 1 0)] in
  (s_size x =? 2) && Beqb (s_get_f x) (fl 3 (-1)) && Beqb (s_get_d F x "x") (fl 2 0) && Beqb (s_get_d F x "z") (fl 0 0) &&
  (s_size (s_constant (fl 3 (-1))) =? 0) && (s_size (s_variable F "x" (fl 3 (-1))) =? 1) &&
  Beqb (s_get_d F (s_variable F "x" (fl 3 (-1))) "x") (fl 1 0) && Beqb (s_get_d F (s_variable F "x" (fl 3 (-1))) "y") (fl 0 0) &&
  (let r := s_add F (s_variable F "x" (fl 1 0)) (s_unary_op F (sk_pow F (fl 2 0)) (s_variable F "y" (fl 1 0))) in
  (s_size r =? 2) && close (s_get_f r) (fl 2 0) && close (s_get_d F r "x") (fl 1 0) && close (s_get_d F r "y") (fl 2 0)) = true.
Proof. vm_compute. reflexivity. Qed.

