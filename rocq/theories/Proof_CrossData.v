(** A table of the lengths of the shortest D crosses, for the proof of C102.  Generated; nothing
    is assumed about it: [Proof_CrossMax.table_checked] checks what is used.

    The four edges of the D cross can stand in 24 * 22 * 20 * 18 ways.  For each state of the first
    two there is one number, in hexadecimal, with one digit for each state of the other two (the
    lowest digit for the first); 15 stands for two edges at one place. *)

From Coq Require Import PArith.

(** One value for each of the 24 states of an edge. *)
Inductive T (A : Type) := mkT (a0 a1 a2 a3 a4 a5 a6 a7 a8 a9 a10 a11 a12 a13 a14 a15 a16 a17 a18 a19 a20 a21 a22 a23 : A).
Arguments mkT {A}.

Local Open Scope positive_scope.
Definition cross_data : T (T positive) := mkT
 (mkT
  1
  1
  0x1ff777677676767677676ffffff646364545454545555ffff76ff7677776777677676ffff74ff7475656565656565ffff7777ff77666666667676ffff7364ff64646464645555ffff768776ff766676667676ffff747574ff656565656565ffff66666566ff6666666575ffff64657475ff6565656565ffff6676657666ff66666565ffff6465747565ff65656565ffff666665666666ff667565ffff646574756565ff656565ffff66766576666666ff6565ffff64657475656565ff6565ffff7576757666666676ff76ffff6565656555555555ff64ffff757675766676666676ffffff656565655555555564ffffffffffffffffffffffffffffffffffffffffffffffffffffffffffffffffffffffffffffffffffffffffffffffffffffff
  0x1ff777777677776777677ffffff667566566565656666ffff76ff7687677677777676ffff76ff7677666666667676ffff7777ff77677776667776ffff7666ff66667675667666ffff768776ff777676677676ffff767776ff677776667666ffff77777676ff7777677676ffff76677566ff7676666676ffff6676656667ff66666665ffff7677767677ff76667676ffff666676766666ff777566ffff667675766676ff766676ffff77777676677776ff7666ffff65666576667666ff7665ffff7777767767767776ff76ffff7666666666666656ff65ffff767676776777666776ffffff666676665666656665ffffffffffffffffffffffffffffffffffffffffffffffffffffffffffffffffffffffffffffffffffffffffffffffffffffff
  0x1ff7676766666666676ff77ffff6463645454545455ff55ff75ff76766676667766ff76ff73ff64646464646455ff55ff7676ff776776766676ff77ff6253ff535353535444ff44ff757676ff6666766666ff76ff636464ff6465645455ff55ff75666576ff66666666ff66ff63656464ff64646555ff65ff6566656666ff666665ff66ff7364646464ff646455ff55ff656565766666ff6665ff66ff646464746465ff6556ff55ff75766566666676ff65ff76ff63646464646464ff55ff55ff7465756565656565ffff56ff6465656555655556ffff65ffffffffffffffffffffffffffffffffffffffffffffffffff747575756566756556ffffff746575656565656565ffffffffffffffffffffffffffffffffffffffffffffffffffffff
  0x1ff7676777776667776ff77ffff7666666665556566ff66ff77ff76777777667776ff77ff77ff76776666666676ff77ff7776ff776676667676ff77ff7676ff776676667676ff76ff778777ff7776776676ff77ff667666ff6666666665ff76ff77767676ff76667666ff66ff66666576ff66667665ff76ff6676767666ff666665ff66ff6676767666ff666675ff76ff776676766677ff7776ff77ff666675766666ff7665ff66ff66766566666676ff65ff76ff66766566666666ff75ff66ff7776767767666776ffff77ff6665666655655565ffff66ffffffffffffffffffffffffffffffffffffffffffffffffff777776776767767676ffffff767676776666667676ffffffffffffffffffffffffffffffffffffffffffffffffffffff
  0x1ff66757666666666ff6666ffff53525343434343ff4454ff66ff757666666666ff6666ff64ff636454545454ff5555ff6666ff6656656555ff6666ff6465ff6465646464ff5565ff667665ff66656565ff6676ff656463ff54545454ff5565ff66656465ff655555ff6556ff54546364ff545454ff5565ff5665646566ff5655ff6566ff6564636464ff5454ff5565ff566564655555ff65ff6665ff545463645454ff54ff5565ff66656465555565ffff5665ff54546364645454ffff5565ffffffffffffffffffffffffffffffffffffffffffffffffff6565646565655565ffff66ff6565646555556565ffff65ff6676656566566666ff66ffff6565646565655555ff65ffffffffffffffffffffffffffffffffffffffffffffffffffff
  0x1ff76777776667666ff7677ffff66757666666666ff6666ff76ff777777676777ff7677ff76ff767766666666ff7677ff7777ff7777767677ff7677ff7676ff6676666566ff6667ff778776ff77677767ff7677ff767766ff76666666ff6677ff76666666ff666666ff7566ff66766676ff666666ff7576ff7777767676ff7767ff7677ff7676667666ff6666ff7576ff766666766666ff67ff6566ff767666767666ff76ff7567ff76767666766676ffff7677ff65766676766666ffff6566ffffffffffffffffffffffffffffffffffffffffffffffffff7676767777777667ffff77ff6666666665556555ffff66ff7677767777677666ff76ffff7777767776667667ff76ffffffffffffffffffffffffffffffffffffffffffffffffffff
  0x1ff767666777767ff767677ffff656465555565ff556565ff76ff7576666666ff666676ff66ff6566666666ff657566ff6666ff66667666ff667566ff7566ff66666666ff766566ff777766ff777676ff767667ff667665ff666666ff667576ff76666666ff6666ff667566ff65667566ff6666ff667576ff7666666666ff66ff667567ff6566655666ff66ff766566ff666675666666ffff667566ff667675666666ffff667576ffffffffffffffffffffffffffffffffffffffffffffffffff76777667777777ffff7677ff65555555556555ffff6455ff76767667677767ff76ff76ff66666565666666ff65ff66ff76676666776777ff7676ffff66666666666666ff6575ffffffffffffffffffffffffffffffffffffffffffffffffffff
  0x1ff766676656666ff656666ffff546354545454ff564555ff75ff7676767665ff666676ff64ff6465656565ff555556ff6576ff76667666ff666576ff6364ff64646454ff554655ff757666ff667666ff666576ff536454ff545554ff444455ff65656576ff6666ff666566ff64656465ff6565ff655566ff6576657666ff66ff666566ff6465646565ff65ff555566ff646565666566ffff555565ff656564656565ffff655566ffffffffffffffffffffffffffffffffffffffffffffffffff75657465656565ffff5666ff55655665556555ffff6465ff75757575657666ff66ff66ff55655565555565ff64ff65ff64756575656565ff5555ffff64656566656655ff5555ffffffffffffffffffffffffffffffffffffffffffffffffffff
  0x1ff6676766667ff77757666ffff6564556565ff55656566ff66ff66766566ff66656666ff66ff65666666ff66757566ff6776ff767676ff66767676ff6576ff666565ff66656666ff667776ff6666ff67757666ff667665ff6666ff66756676ff76767566ff66ff66767666ff66667566ff66ff66757676ff6676756666ffff66756676ff6676756666ffff66757676ffffffffffffffffffffffffffffffffffffffffffffffffff667666666666ffff756676ff666675666666ffff757676ff677675666766ff66ff7676ff666665656666ff66ff6565ff767776677677ff7776ff77ff556565655555ff5564ff65ff666776766667ff677576ffff667675667666ff667566ffffffffffffffffffffffffffffffffffffffffffffffffffff
  0x1ff6566766666ff66757566ffff6463645454ff54465555ff76ff75767676ff66667676ff64ff64656565ff65555556ff6675ff766666ff66757566ff5353ff545454ff45555544ff767675ff7666ff66667676ff646464ff6555ff55555555ff76756576ff66ff66667566ff64656465ff65ff65556556ff6665657666ffff66656566ff6464546565ffff55555555ffffffffffffffffffffffffffffffffffffffffffffffffff656565666666ffff656665ff646464556565ffff556555ff656465656566ff56ff6655ff656456656565ff55ff6455ff646464656565ff5556ff55ff565465655555ff5564ff55ff757565756666ff666666ffff656565666666ff566565ffffffffffffffffffffffffffffffffffffffffffffffffffff
  0x1ff76667677ff6667767676ffff65646565ff5555566575ff66ff667677ff6667667576ff66ff656666ff6666657566ff7777ff6677ff7666767677ff7576ff6666ff6566766566ff667665ff66ff6666667566ff667665ff66ff6656666576ff76666566ffff6666667566ff66766576ffff6666667576ffffffffffffffffffffffffffffffffffffffffffffffffff7666667666ffff66767576ff7666657676ffff66667576ff7677667677ff77ff767676ff6566556666ff66ff666576ff7777767677ff7767ff7676ff6565555555ff5555ff6465ff7676667767ff676767ff77ff6666666566ff666665ff65ff7677666666ff66676675ffff7676656666ff66666675ffffffffffffffffffffffffffffffffffffffffffffffffffff
  0x1ff76767676ff6666757666ffff54635455ff5454455545ff66ff757666ff7666657676ff64ff646565ff6565555556ff7676ff7677ff6666767567ff6465ff6465ff6565555555ff767775ff77ff7666667666ff647564ff65ff6555555556ff76767576ffff6666667566ff65666465ffff6565556556ffffffffffffffffffffffffffffffffffffffffffffffffff6566657666ffff66656666ff6565646565ffff65556556ff6676656666ff76ff656666ff6565646565ff65ff556556ff6565746566ff6565ff6656ff6665556566ff5555ff6456ff7576757576ff666666ff66ff5665656555ff655564ff55ff6575647566ff65655565ffff6566656666ff66666665ffffffffffffffffffffffffffffffffffffffffffffffffffff
  0x1ff666666ff666566756666ffff556465ff556565656665ff66ff7676ff677677757666ff66ff6566ff666666657566ff7766ff66ff767677767677ff7566ff66ff666566756666ff777776ffff677666767677ff766665ffff667666756676ffffffffffffffffffffffffffffffffffffffffffffffffff76667676ffff7667756666ff76667576ffff7666757666ff66656566ff66ff66656666ff66667576ff66ff66757676ff76666566ff6676ff756666ff65666566ff6676ff757666ff77667566ff667676ff6666ff66666665ff666666ff7566ff76767677ff77767776ff77ff65556555ff55655564ff55ff76677776ff6777777676ffff76666566ff6666666575ffffffffffffffffffffffffffffffffffffffffffffffffffff
  0x1ff767676ff766666757666ffff546354ff545454455545ff76ff7576ff766676667676ff64ff6465ff656565555556ff7676ff66ff766666667566ff6464ff64ff656555565655ff767775ffff767666667676ff657564ffff666565556556ffffffffffffffffffffffffffffffffffffffffffffffffff76767566ffff6666667566ff75756565ffff6565666566ff66656566ff66ff66656566ff65656465ff65ff65556556ff66766576ff6676ff656666ff65656465ff6565ff556556ff75657465ff656565ff6656ff65655555ff655555ff6456ff75757575ff76666666ff66ff55656565ff55656564ff55ff65656475ff6565655565ffff75666566ff6666666665ffffffffffffffffffffffffffffffffffffffffffffffffffff
  0x1ff7676ff77676767767677ffff6564ff65555555666565ff76ff76ff77676766767677ff75ff75ff66666666757576ff7777ffff67676667767677ff6465ffff65555555656566ffffffffffffffffffffffffffffffffffffffffffffffffff666675ffff666656656566ff657675ffff666666767576ff667675ff66ff6656666566ff657675ff66ff6656756576ff666675ff6666ff66757566ff756675ff6666ff66757576ff667666ff666666ff656566ff756665ff666666ff757576ff767676ff67776667ff7677ff556565ff55555545ff5465ff767676ff6767676776ff77ff656665ff5555555664ff65ff667676ff766767577666ffff657675ff666666566565ffffffffffffffffffffffffffffffffffffffffffffffffffff
  0x1ff7676ff66766676767677ffff6565ff65646464565656ff76ff76ff77767677767777ff75ff75ff65656565666667ff7676ffff77767666767677ff7565ffff65657465665656ffffffffffffffffffffffffffffffffffffffffffffffffff767676ffff767666677677ff757675ffff757575666666ff767776ff67ff7666777667ff647565ff65ff6565555566ff757666ff6676ff66666666ff657564ff6565ff65556566ff767776ff677676ff766677ff647565ff656565ff655566ff757675ff66757675ff6667ff667666ff66656555ff6566ff757575ff7676656666ff66ff666666ff5665656565ff66ff758676ff766576666666ffff757676ff767666666666ffffffffffffffffffffffffffffffffffffffffffffffffffff
  0x1ff65ff6666665656666566ffff65ff6566655555666566ff66ffff7666665666667566ff65ffff6555555555656465ffffffffffffffffffffffffffffffffffffffffffffffffff6677ffff66666656776576ff5565ffff65655545655466ff6555ff65ff555555566455ff6665ff75ff655555656465ff5565ff6555ff5555556455ff6565ff6555ff5555756465ff6555ff655566ff56656466ff6665ff756565ff55657465ff6666ff65666666ff656576ff6565ff75656555ff656466ff7666ff7666666666ff7566ff5454ff5444544444ff5354ff6665ff665666565676ff66ff6665ff755555655564ff65ff6676ff76666666566665ffff6565ff65555555556564ffffffffffffffffffffffffffffffffffffffffffffffffffff
  0x1ff77ff7776777777767777ffff65ff6564546454565656ff76ffff7777767676767677ff75ffff7665657565666667ffffffffffffffffffffffffffffffffffffffffffffffffff7677ffff77667676767677ff7576ffff75657565666667ff7676ff77ff767666777667ff6475ff75ff656565665666ff6677ff7777ff7666777677ff6475ff6565ff6565655666ff7576ff777666ff76666676ff7575ff757565ff65666666ff7677ff77766676ff767677ff6465ff65656565ff555566ff7575ff7665657565ff6766ff6676ff6666666666ff7566ff7676ff767675767666ff67ff6666ff666666667675ff66ff7576ff76766675756666ffff7576ff77767666666666ffffffffffffffffffffffffffffffffffffffffffffffffffff
  0x1ffff767777776677767677ffffff646555556555656565ffffffffffffffffffffffffffffffffffffffffffffffffff76ffff7766666767757666ff74ffff6565656565656565ff76ff76ff77677666767677ff75ff65ff66666666656666ff65ff6566ff666666756566ff75ff7576ff666666757576ff66ff767666ff6666656576ff75ff757666ff6666757566ff65ff65665556ff66646555ff75ff75666666ff66757676ff65ff6566666666ff656566ff65ff7576666666ff657576ff76ff767767676777ff7676ff65ff666565565555ff6465ff76ff76776667677775ff66ff65ff65655555555564ff65ff76ff7677676767677676ffff76ff7576666666667575ffffffffffffffffffffffffffffffffffffffffffffffffffff
  0x1ffff767776777666767677ffffff656565656564565666ffffffffffffffffffffffffffffffffffffffffffffffffff77ffff7776777676767677ff65ffff6564656455565655ff76ff76ff77777777777687ff65ff65ff75667565665666ff76ff7676ff777676767667ff65ff6465ff656565556556ff76ff667666ff6666667577ff75ff657575ff7565666666ff66ff76766667ff66756666ff65ff64756565ff65556566ff77ff6676767776ff766676ff64ff6465656565ff655566ff76ff757675667665ff6666ff66ff666675766565ff6566ff75ff75767576656666ff66ff66ff66766566656565ff66ff75ff7576667676666666ffff76ff7677767676667666ffffffffffffffffffffffffffffffffffffffffffffffffffff
  0x1ffffffffffffffffffffffffffffffffffffffffffffffffffff667666676767756776ffffff656555555555646565ffff65ff6656666666756666ffff65ff6555566556646665ffff7666ff66566656656676ffff7555ff55556555645565ffff666665ff566666656565ffff656565ff556565646565ffff66666555ff6656645565ffff65666555ff6555646565ffff5455655555ff55645555ffff6565655555ff65646565ffff655555555565ff645665ffff656565555565ff646565ffff76666657566666ff7666ffff75666555655555ff6465ffff6566766666666775ff66ffff5455544444544453ff54ffff766666565676666566ffffff666665555566656465ffffffffffffffffffffffffffffffffffffffffffffffffffff
  0x1ffffffffffffffffffffffffffffffffffffffffffffffffffff767776777677767677ffffff757675757575666667ffff77ff7766767677767677ffff65ff6564646455566655ffff7776ff77777677777677ffff7675ff75657565566666ffff667576ff766666667667ffff657465ff656565565666ffff77767676ff7677667677ffff75647575ff6565566666ffff7675766666ff76667776ffff6574656565ff65566656ffff777677767676ff767676ffff657465656565ff566656ffff76757676767566ff6766ffff66666675766566ff6566ffff7675767575756667ff66ffff6676666666656675ff66ffff767576766676766666ffffff777677767676666676ffffffffffffffffffffffffffffffffffffffffffffffffffff)
 (mkT
  1
  1
  0x1ff777777767767777776ffffff667566656556656666ffff76ff7687777767767676ffff76ff7677666666667676ffff7777ff77766667777677ffff7666ff66756666766676ffff768776ff766777767676ffff767776ff766667776676ffff66667676ff7766666675ffff66767576ff7666767666ffff7777767676ff67776676ffff6566657666ff66766576ffff777776767767ff777676ffff766775667666ff767666ffff66766566666667ff6566ffff76777676766677ff7676ffff7676767766676777ff76ffff6666766665665666ff65ffff777776777776677676ffffff766666666656666665ffffffffffffffffffffffffffffffffffffffffffffffffffffffffffffffffffffffffffffffffffffffffffffffffffffff
  0x1ff777777677767777777ffffff777677667766776767ffff77ff7788777777777777ffff77ff7787777777777777ffff7777ff77677767777676ffff7677ff77667766777676ffff777777ff667766777676ffff777777ff667766777676ffff77777777ff7767677776ffff77777777ff7666766776ffff6666667766ff56666675ffff7666767766ff65766666ffff777777776767ff777677ffff777777776676ff767667ffff66666677566666ff7566ffff76667677657666ff6666ffff7777767766767677ff77ffff6666777766775666ff76ffff777776777677667677ffffff666677775666667776ffffffffffffffffffffffffffffffffffffffffffffffffffffffffffffffffffffffffffffffffffffffffffffffffffffff
  0x1ff6667766666566665ff66ffff6675666666656566ff66ff65ff76766575667656ff66ff75ff66666566666666ff66ff7576ff676667666665ff66ff5444ff555354445545ff45ff747566ff6565656655ff65ff645566ff6465556555ff55ff65666676ff76566656ff66ff74556656ff65656665ff55ff6566666665ff566665ff56ff6354665554ff546545ff54ff656666766666ff6765ff76ff656565666566ff7665ff65ff64655666555665ff54ff65ff64556566646555ff55ff55ff6455665664565566ffff55ff5555566655654555ffff66ffffffffffffffffffffffffffffffffffffffffffffffffff646566665565657656ffffff655566666465556556ffffffffffffffffffffffffffffffffffffffffffffffffffffff
  0x1ff6677677677576776ff67ffff6675666666676666ff76ff66ff66776667666775ff76ff77ff76777766676776ff77ff6666ff676667576765ff76ff6566ff676667566665ff76ff667666ff6667676675ff76ff666666ff6667576775ff76ff66667666ff77576776ff66ff77777676ff77677776ff76ff6666766766ff576765ff76ff6666666766ff566775ff76ff666666666667ff6775ff76ff766776777777ff7776ff77ff55655666555666ff64ff65ff76777767767767ff76ff77ff6677767767776777ffff77ff5555665655664656ffff66ffffffffffffffffffffffffffffffffffffffffffffffffff777767777767677776ffffff666676676666576776ffffffffffffffffffffffffffffffffffffffffffffffffffffff
  0x1ff67767777776776ff7677ffff55646554544554ff5555ff66ff767666766675ff6776ff66ff756656656565ff6666ff6766ff6666755776ff6676ff7666ff6666756665ff6766ff667665ff66656665ff6676ff666675ff65655666ff6666ff77667576ff765666ff6666ff55557465ff656565ff6665ff6666756566ff5766ff6666ff6665746665ff5565ff5665ff766675766666ff66ff6676ff655664556565ff65ff5665ff56656466555666ffff5565ff76667565756566ffff6666ffffffffffffffffffffffffffffffffffffffffffffffffff6666756665665665ffff66ff6766657666665666ffff76ff7676757666666676ff67ffff6666756665655665ff66ffffffffffffffffffffffffffffffffffffffffffffffffffff
  0x1ff66677776675766ff7667ffff77767777676767ff7677ff67ff777767676777ff7677ff77ff777777676777ff7677ff7777ff6776676777ff7677ff7676ff7766676777ff7677ff777767ff76676767ff7677ff767767ff76676777ff7677ff66666666ff675666ff7566ff77777777ff777677ff7677ff7677776776ff6767ff7677ff6666677766ff5666ff7576ff776766776667ff77ff7677ff777767777667ff77ff7677ff66665666655776ffff6576ff77777777766667ffff7667ffffffffffffffffffffffffffffffffffffffffffffffffff7777777777776777ffff77ff6666666665565666ffff66ff7777677777677677ff76ffff7777777776676777ff76ffffffffffffffffffffffffffffffffffffffffffffffffffff
  0x1ff667766767757ff767667ffff667666667657ff766677ff66ff6677666767ff756676ff76ff7667677667ff767677ff6666ff66667757ff667677ff6566ff66666756ff656566ff667666ff666767ff657576ff767777ff767767ff767677ff66667666ff7656ff767566ff66777677ff7667ff767676ff6666776667ff57ff667676ff6566766665ff56ff667566ff766777676777ffff767677ff666666766666ffff757676ffffffffffffffffffffffffffffffffffffffffffffffffff76777777667767ffff7667ff55556655556646ffff6566ff66667777667757ff76ff77ff66666666666757ff76ff76ff76776777777767ff6676ffff66666666666656ff7776ffffffffffffffffffffffffffffffffffffffffffffffffffff
  0x1ff666777666757ff756666ffff666566656656ff666666ff65ff7677667666ff666676ff76ff7677667656ff766677ff6666ff66666667ff756676ff6455ff66545555ff565655ff756666ff656666ff656666ff656666ff666656ff666666ff66666676ff7756ff666566ff65667566ff7666ff666666ff6666767666ff57ff666667ff6465656565ff55ff555565ff756666766667ffff656676ff666665666666ffff756676ffffffffffffffffffffffffffffffffffffffffffffffffff75667666656766ffff6666ff55556666556646ffff5566ff66667676667757ff76ff76ff65666677656656ff65ff66ff75767676666666ff6666ffff66667667656656ff6666ffffffffffffffffffffffffffffffffffffffffffffffffffff
  0x1ff6777677777ff76767666ffff6776667666ff76767676ff66ff66766667ff67757676ff66ff66776667ff76757676ff6667ff676666ff76756676ff6566ff666566ff66656666ff667766ff6667ff66756676ff666766ff6667ff76756676ff76677767ff77ff76767676ff77777676ff66ff76767776ff6667766666ffff66656676ff6666666775ffff76656676ffffffffffffffffffffffffffffffffffffffffffffffffff556655665556ffff645565ff767777777667ffff767776ff666777776677ff77ff7767ff655666566666ff65ff6667ff767776677777ff7776ff77ff655666666556ff6665ff66ff767767777667ff776677ffff766777676666ff767676ffffffffffffffffffffffffffffffffffffffffffffffffffff
  0x1ff6666777667ff66767677ffff6675666565ff65666666ff66ff76777676ff76667776ff66ff76776566ff66666767ff6676ff676666ff76756676ff6455ff566465ff56556556ff656666ff6666ff66656676ff656666ff6566ff66656666ff65666677ff77ff66667666ff65667666ff76ff76767666ff6566666666ffff66656666ff6456656665ffff66556565ffffffffffffffffffffffffffffffffffffffffffffffffff656555655556ffff645565ff756676667566ffff667666ff756676676566ff67ff7666ff565656666566ff55ff6566ff656666666566ff6665ff66ff666666666556ff6665ff66ff756666776666ff776676ffff656666677566ff666666ffffffffffffffffffffffffffffffffffffffffffffffffffff
  0x1ff66667776ff5766767666ffff66657666ff5666666676ff67ff677767ff6767767677ff77ff667667ff6767767676ff6676ff6766ff6767667576ff6566ff7766ff5666666576ff666666ff66ff5666667576ff666666ff66ff5666667576ff66666666ffff5666667566ff67767676ffff6666777676ffffffffffffffffffffffffffffffffffffffffffffffffff6666667766ffff67757676ff7666667776ffff76767676ff7666666666ff66ff656675ff6666667665ff56ff667566ff7677767776ff6677ff7677ff5555556655ff4555ff6465ff6666667766ff576776ff77ff6665666666ff566665ff75ff7777777777ff67776776ffff6666666666ff56667676ffffffffffffffffffffffffffffffffffffffffffffffffffff
  0x1ff76777777ff6777767777ffff66755666ff5665566656ff75ff767776ff7676666676ff76ff766766ff6676667767ff7677ff7776ff6777767667ff7666ff6775ff6666666766ff657665ff66ff7666656666ff656666ff65ff5666656666ff77777677ffff6676677667ff66667566ffff6676667666ffffffffffffffffffffffffffffffffffffffffffffffffff7677767776ffff77767777ff7667756666ffff76666666ff6676757667ff67ff666676ff7576766676ff66ff666666ff6666756666ff7676ff7766ff6666666666ff5666ff6667ff7677767777ff677666ff77ff6667766766ff677676ff67ff7676757767ff66766666ffff7666766675ff66666666ffffffffffffffffffffffffffffffffffffffffffffffffffff
  0x1ff666666ff676666756676ffff666576ff666666656676ff67ff7777ff676777767676ff77ff7676ff666677767676ff6666ff67ff667667756676ff6566ff77ff676666656676ff766666ffff676666756676ff666666ffff666666756576ffffffffffffffffffffffffffffffffffffffffffffffffff66667666ffff6667756676ff66666677ffff6566656676ff66666666ff66ff67756676ff76666677ff66ff76757676ff65555566ff5665ff645565ff76667677ff6666ff657676ff66667677ff676677ff7667ff66666666ff675656ff6576ff76777677ff77677776ff77ff55556666ff56656664ff66ff77776777ff6776777677ffff66666676ff6656667575ffffffffffffffffffffffffffffffffffffffffffffffffffff
  0x1ff667777ff777777767777ffff567566ff655665566656ff76ff7576ff767676667676ff77ff7677ff766676667776ff7766ff77ff766777667677ff6655ff56ff766566666666ff767676ffff767776667676ff766666ffff766677667766ffffffffffffffffffffffffffffffffffffffffffffffffff77667676ffff6776667667ff65657666ffff7666667675ff76667677ff77ff77767776ff76667566ff66ff76666666ff66756576ff6666ff756666ff76667666ff6676ff667766ff76667566ff666676ff6766ff66556666ff766666ff6666ff76667667ff77667676ff66ff67667667ff66667676ff66ff66667576ff6676766676ffff76667667ff7666766777ffffffffffffffffffffffffffffffffffffffffffffffffffff
  0x1ff6677ff76665766767667ffff6675ff65655665666666ff66ff76ff66766666667677ff76ff76ff66666666767677ff7777ffff76676777767676ff6555ffff64655565566656ffffffffffffffffffffffffffffffffffffffffffffffffff666676ffff665666667566ff666675ffff766666766666ff666676ff66ff5666667566ff656676ff65ff5666667676ff666666ff6667ff66757676ff766775ff7566ff76666666ff666666ff666657ff656676ff656676ff656656ff666566ff766676ff75776676ff7666ff555566ff55554655ff6566ff666676ff6666576676ff77ff666666ff6556566665ff66ff767776ff777667776676ffff666676ff656655566666ffffffffffffffffffffffffffffffffffffffffffffffffffff
  0x1ff7777ff77776777767777ffff7675ff66666766666666ff76ff77ff77777777767787ff77ff76ff77776767767777ff7677ffff77766777767777ff6576ffff66666666656676ffffffffffffffffffffffffffffffffffffffffffffffffff777777ffff776667767677ff767776ffff767776767676ff667666ff76ff6667667576ff667666ff66ff6667756676ff767666ff6667ff66757676ff666666ff6666ff66756676ff556555ff555666ff645565ff756666ff657666ff666666ff767777ff66766777ff7777ff666667ff66665656ff6666ff666666ff6677577776ff77ff767666ff6667666675ff76ff768767ff776677777677ffff777777ff767767677676ffffffffffffffffffffffffffffffffffffffffffffffffffff
  0x1ff55ff6665664655666556ffff66ff7666665656666576ff56ffff7656665666667566ff66ffff6666655656666566ffffffffffffffffffffffffffffffffffffffffffffffffff6676ffff66666656667576ff5555ffff55664655666566ff5555ff65ff664555666455ff6666ff66ff665666666566ff5555ff6655ff4655556566ff5555ff6655ff4555666465ff6656ff665666ff56666566ff6656ff666666ff65767566ff5565ff66555656ff556465ff6666ff76656666ff667566ff6666ff6666675666ff7566ff4444ff5544553544ff5455ff5555ff765566466766ff66ff6666ff776666565666ff76ff6666ff77666656666675ffff5555ff66555546556665ffffffffffffffffffffffffffffffffffffffffffffffffffff
  0x1ff76ff7777776777767777ffff66ff6665655665676666ff75ffff7776767676666676ff76ffff7766666676767777ffffffffffffffffffffffffffffffffffffffffffffffffff7576ffff76766676666676ff7576ffff76766676666676ff7677ff77ff776677767676ff6566ff67ff767676766766ff6676ff6666ff6766756676ff6465ff6665ff6576555665ff7677ff777667ff77767776ff7666ff777776ff76766776ff6576ff76666676ff656666ff7576ff77766666ff666676ff7566ff6765676676ff6766ff6666ff7766675666ff6576ff7677ff777677677676ff77ff6667ff766657667765ff76ff7576ff77666676766667ffff7677ff77766667767676ffffffffffffffffffffffffffffffffffffffffffffffffffff
  0x1ffff777777776767767677ffffff756666656665666666ffffffffffffffffffffffffffffffffffffffffffffffffff76ffff6766666667756676ff75ffff6665666566656666ff75ff66ff66666666656676ff75ff66ff66666667656676ff66ff6676ff676666756576ff75ff6566ff666676756666ff76ff766666ff6667756676ff64ff656665ff6565556575ff76ff66666666ff67756675ff75ff65666666ff66656676ff65ff5566555655ff645565ff75ff7666666676ff667675ff75ff766766676676ff7666ff66ff666666665656ff6566ff76ff76777776667676ff76ff66ff66665656656665ff66ff75ff6677676676766676ffff66ff7677666666666676ffffffffffffffffffffffffffffffffffffffffffffffffffff
  0x1ffff777766775666766667ffffff757666765666776677ffffffffffffffffffffffffffffffffffffffffffffffffff76ffff7766775776766777ff65ffff6766765566666667ff77ff77ff77776676766787ff76ff76ff66775666766677ff76ff7677ff775766767667ff66ff7677ff766676667767ff76ff767776ff5666666677ff76ff767766ff5566666676ff76ff76766667ff66757676ff76ff76777776ff66767677ff66ff6676666766ff655676ff76ff7777666766ff767677ff76ff767767776677ff7777ff65ff666665664655ff6566ff76ff76777677567676ff77ff76ff76775666566676ff76ff77ff7687777766777677ffff76ff7677667656667676ffffffffffffffffffffffffffffffffffffffffffffffffffff
  0x1ffffffffffffffffffffffffffffffffffffffffffffffffffff677666666766657776ffffff666666566666656776ffff65ff5655565666645665ffff65ff6655565666645665ffff7556ff55566655645665ffff6556ff55565666645665ffff666666ff665666656665ffff666665ff666666756665ffff65665655ff5656645665ffff65566655ff5566645665ffff5555655556ff56646565ffff6556665556ff65647665ffff644555444556ff534554ffff666666655666ff656666ffff66666656665667ff6666ffff66666656665666ff6666ffff7666766666676775ff76ffff5555555445455554ff55ffff765766665666666567ffffff666666655656666566ffffffffffffffffffffffffffffffffffffffffffffffffffff
  0x1ffffffffffffffffffffffffffffffffffffffffffffffffffff767766767777677777ffffff767766776777777677ffff77ff7766766777767677ffff55ff5664655566566656ffff7776ff76767776667677ffff6666ff65766676667767ffff777676ff776667667566ffff667566ff766676777766ffff77767666ff6777667667ffff66756665ff6667566666ffff7776776777ff77767777ffff6675666676ff76666766ffff666576666776ff656676ffff667666756666ff667667ffff66766775776677ff7667ffff66676655665666ff6566ffff6676676576667666ff67ffff6676676667667775ff76ffff777677767667776777ffffff667667656666666676ffffffffffffffffffffffffffffffffffffffffffffffffffff)
 (mkT
  0x1ff667677666666667575ffffff646364545454545555ffff65ff7677766676666565ffff64ff7475646564656565ffff6666ff66566656666565ffff6253ff54535353534444ffff657666ff666666666565ffff636464ff545454545454ffff65656566ff6555556564ffff63646465ff5454545454ffff5565657666ff55555564ffff6364646464ff54545454ffff656565665555ff656465ffff636464655454ff545454ffff55656576555566ff6455ffff63646464545464ff5454ffff6465756655656565ff65ffff5454555554544444ff53ffff646575666565556565ffffff545455554444545453ffffffffffffffffffffffffffffffffffffffffffffffffffffffffffffffffffffffffffffffffffffffffffffffffffffff
  0x1ff767677666676677576ffffff766566666665566566ffff65ff7677766666667566ffff76ff7677767776677677ffff6676ff67667666576666ffff6565ff56656564556656ffff768777ff776776667667ffff657666ff666665567566ffff76666667ff6666577566ffff65766667ff6665567566ffff6676667777ff66676666ffff6576666676ff65567566ffff556565666555ff666465ffff756676677676ff667676ffff66767667666666ff7566ffff64656566656565ff6555ffff6677767767777667ff76ffff6665555665555546ff55ffff656676676666656775ffffff667666676666655665ffffffffffffffffffffffffffffffffffffffffffffffffffffffffffffffffffffffffffffffffffffffffffffffffffffff
  1
  1
  0x1ff6566665555556665ffff66ff6464656464636555ffff5564ff66766565656655ffff6563ff65646364646555ffff557566ff666666665665ffff665142ff434242424433ffff43646566ff5565656655ffff66625354ff5353535344ffff5464655666ff65555655ffff6562535454ff53535444ffff546455566665ff555655ffff656253545353ff535444ffff54546566665555ff6654ffff56646365656464ff6555ffff6564655666555565ff64ffff6662535354535353ff44ffff546354655554546455ffffff555354555554544445ffffff54ffffffffffffffffffffffffffffffffffffffffffffffffffffffffffffffffffffffffffffffffffffffffffffffff646565656565655655ffffff636465555454646554ffffff
  0x1ff6677777676677776ffff77ff6675666666656665ffff6666ff76777666666775ffff7766ff76776566667675ffff676666ff665565566665ffff666566ff666565566565ffff66667666ff6667677665ffff77666666ff6565556565ffff6766667666ff75566665ffff6655756666ff55556664ffff665666767666ff666655ffff665565666565ff556674ffff66667676676666ff6775ffff66656576766666ff7675ffff6655656666655566ff64ffff6666757566656566ff65ffff666666767757666677ffffff775555655554544555ffffff55ffffffffffffffffffffffffffffffffffffffffffffffffffffffffffffffffffffffffffffffffffffffffffffffff667676766666666675ffffff667776776666666675ffffff
  0x1ff66757666666666ff76ff66ff53525343434343ff44ff4466ff757676666666ff66ff6664ff636454545454ff55ff556666ff6656655665ff66ff666364ff6454646464ff55ff55667665ff66656675ff66ff66646463ff54545454ff55ff5566656465ff655555ff65ff6554546364ff545454ff55ff555565647566ff5556ff55ff656464636464ff5454ff55ff55667564655555ff65ff65ff56545463646454ff54ff55ff5556656465555566ffff65ff6664646364545464ffff55ff65ffffffffffffffffffffffffffffffffffffffffffffffff6565746555656565ffffff566565646555555555ffffff65ffffffffffffffffffffffffffffffffffffffffffffffff6565646565656655ff56ffff6565646555556565ff65ffff
  0x1ff66666665556666ff75ff66ff66657666666666ff65ff6666ff677776666666ff65ff7666ff667765666666ff75ff667676ff6666667777ff76ff776555ff6665556465ff55ff56757666ff66666666ff65ff76656666ff65556565ff65ff6665655666ff655556ff64ff6565655666ff555556ff64ff656666667666ff6666ff65ff766565566565ff5556ff64ff65766666666555ff66ff65ff66756566666666ff66ff75ff6676666666655576ffff65ff6674656666655565ffff55ff65ffffffffffffffffffffffffffffffffffffffffffffffff7566766766666567ffffff666555555554445555ffffff56ffffffffffffffffffffffffffffffffffffffffffffffff7576667676666666ff65ffff7666666665556566ff66ffff
  0x1ff666666667666ff7565ff76ff656455656555ff6565ff6566ff7667766666ff7565ff6666ff7566656666ff7675ff765665ff56666655ff5664ff656465ff56656555ff6664ff55767666ff667767ff6665ff76656565ff656665ff6564ff6665656556ff6555ff6564ff6564756556ff6555ff6564ff656576766666ff66ff6675ff666465655565ff55ff6564ff65667666676666ffff7575ff66656575666666ffff7575ff65ffffffffffffffffffffffffffffffffffffffffffffffff65667567666666ffff65ff7655545445545544ffff53ff5465666667667656ff66ffff6665656656556655ff64ffff65ffffffffffffffffffffffffffffffffffffffffffffffff76766657766667ff7666ffff55656566655566ff6465ffff
  0x1ff656676656566ff6565ff66ff646364545454ff4545ff5564ff6566666565ff6555ff6664ff6475646565ff5555ff566665ff76566666ff7565ff655253ff54535343ff4435ff44646565ff656565ff6555ff75536454ff545454ff5444ff4565655566ff6555ff6564ff6553645465ff5454ff5444ff555565557666ff55ff5564ff655364546464ff54ff5444ff55646565665555ffff6455ff56646464656565ffff5555ff65ffffffffffffffffffffffffffffffffffffffffffffffff64656565556565ffff55ff6654544665545444ffff53ff5464647565656555ff65ffff5645545565444454ff53ffff55ffffffffffffffffffffffffffffffffffffffffffffffff53645465545454ff5444ffff64656566555565ff6455ffff
  0x1ff6666777666ff677566ff66ff6564656555ff655466ff6555ff65666555ff666465ff5666ff65766566ff767576ff765676ff666666ff666566ff756465ff665454ff655555ff65667666ff7667ff766566ff76556565ff6555ff656465ff6566767666ff66ff666576ff6565766566ff55ff666566ff656666667666ffff666565ff766565656565ffff666465ff65ffffffffffffffffffffffffffffffffffffffffffffffff556665666555ffff6455ff66557565666555ffff6465ff76566676776666ff77ff66ff76666555566555ff55ff64ff64666666677666ff7765ffff66445455555444ff5553ffff65ffffffffffffffffffffffffffffffffffffffffffffffff657676676666ff667566ffff556665666555ff656465ffff
  0x1ff6566665555ff666475ff56ff5463545454ff545655ff4575ff76677666ff666666ff6664ff64656465ff655555ff566565ff665565ff666564ff566243ff445353ff444445ff34656666ff6666ff666565ff66535454ff5454ff545444ff4565656566ff65ff566564ff5563545455ff54ff555454ff455565656666ffff565564ff556354546464ffff555454ff45ffffffffffffffffffffffffffffffffffffffffffffffff646565665555ffff6455ff56635464555454ffff5454ff45746564655565ff65ff65ff56545455555454ff45ff53ff44635464556464ff5555ffff45555455554444ff5553ffff45ffffffffffffffffffffffffffffffffffffffffffffffff647465656565ff566555ffff545565665555ff656465ffff
  0x1ff66667666ff66676675ff76ff65646565ff55555565ff6566ff667676ff66677675ff7666ff657665ff65666665ff667676ff6666ff67676665ff766455ff6555ff54556554ff55556555ff66ff55565564ff65656555ff65ff55556564ff6565655565ffff55566564ff6565655565ffff55566564ff65ffffffffffffffffffffffffffffffffffffffffffffffff6566666666ffff676565ff667565657666ffff666675ff756566667666ff66ff6566ff666465556565ff55ff6564ff657676667667ff6667ff75ff765554455454ff4445ff53ff546566667666ff566776ffff665555566555ff555654ffff65ffffffffffffffffffffffffffffffffffffffffffffffff6576566666ff66576665ffff6566666666ff65666575ffff
  0x1ff75667666ff76767576ff66ff64636455ff54554545ff5575ff757676ff76666666ff7665ff647565ff65665555ff666575ff7666ff66667665ff665453ff5454ff54555455ff44667675ff66ff76676566ff76536454ff64ff54545444ff5566657566ffff66666665ff6664646465ffff65655555ff55ffffffffffffffffffffffffffffffffffffffffffffffff6575656666ffff666566ff666565647565ffff665555ff666675656666ff66ff6565ff666464646565ff65ff5555ff556565746566ff7566ff56ff665564555565ff5555ff64ff556564756565ff656665ffff555564556555ff655564ffff55ffffffffffffffffffffffffffffffffffffffffffffffff6475656565ff65656555ffff6565657666ff66666565ffff
  0x1ff556666ff5565666465ff56ff556465ff5565656566ff6666ff7677ff6676677576ff6665ff6566ff5565666465ff667656ff66ff6666677565ff666455ff66ff5554556555ff55756666ffff6666667565ff76655565ffff5565656465ff66ffffffffffffffffffffffffffffffffffffffffffffffff65666676ffff66666565ff6665656565ffff65667465ff6665556566ff55ff666465ff5675657576ff66ff767576ff7665556566ff5565ff6455ff6674556565ff5565ff6465ff6566566576ff666666ff75ff6665556566ff555556ff64ff6565667676ff66666775ffff6754445555ff44645553ffff55ffffffffffffffffffffffffffffffffffffffffffffffff75667676ff6666677566ffff65556566ff5565656465ffff
  0x1ff756676ff7666667575ff66ff546354ff5454544555ff5575ff7677ff6666676566ff6764ff6465ff6565655555ff566565ff76ff6666666565ff665463ff55ff6464555555ff45757676ffff6676766666ff76536454ffff5454555444ff55ffffffffffffffffffffffffffffffffffffffffffffffff65666576ffff66666665ff6664646565ffff65656555ff5665657566ff66ff666565ff6665746566ff65ff666565ff5665757576ff6666ff7566ff6664646465ff6565ff5555ff5675657465ff656565ff66ff6664545565ff655555ff54ff5565647465ff65656556ffff5655646565ff55556564ffff55ffffffffffffffffffffffffffffffffffffffffffffffff64756576ff6565666555ffff64656566ff6565666555ffff
  0x1ff6676ff666666667675ff76ff6564ff655555556565ff6565ff76ff766666666675ff7665ff75ff656665667665ff667677ffff677767777676ff776354ffff545454545554ff54ffffffffffffffffffffffffffffffffffffffffffffffff656565ffff5555556564ff65646565ffff5555556564ff65656676ff66ff66666565ff66656565ff65ff55556564ff65667666ff6666ff666565ff65746575ff6665ff656565ff75556565ff665655ff5564ff65646565ff655555ff6564ff65756676ff66666666ff75ff76545455ff54454444ff53ff54656676ff6666566676ffff66656565ff5555555564ffff65ffffffffffffffffffffffffffffffffffffffffffffffff757666ff665666567666ffff657666ff666665566565ffff
  0x1ff7676ff666666777576ff67ff7565ff657465645656ff5675ff76ff767676767666ff7775ff76ff757575756666ff666676ffff667666666675ff666465ffff656564655555ff56ffffffffffffffffffffffffffffffffffffffffffffffff757676ffff7666666665ff76647565ffff6565656555ff66757666ff66ff66666665ff76646465ff65ff65656555ff55657666ff6666ff667566ff66647565ff6565ff656565ff55667666ff667676ff7566ff66536454ff545454ff5444ff55757675ff66756676ff66ff67656565ff65655555ff64ff65646565ff6565556665ffff56566555ff5565656564ffff66ffffffffffffffffffffffffffffffffffffffffffffffff647565ff656565556555ffff657666ff667676767566ffff
  0x1ff55ff66556555566664ff65ff55ff65656555556664ff6555ffff66666555566664ff6555ffff65646555556564ff65ffffffffffffffffffffffffffffffffffffffffffffffff6676ffff666666666675ff765454ffff545444445553ff545554ff55ff5444455553ff545564ff65ff5444455553ff544554ff6555ff44454553ff545554ff6454ff44456553ff546565ff565555ff566564ff556564ff755565ff556564ff646565ff66555556ff5554ff655564ff65545464ff5463ff656665ff6666655556ff64ff654443ff5443433334ff42ff435655ff765565465665ffff566565ff656565545564ffff65ffffffffffffffffffffffffffffffffffffffffffffffff6665ff66656556466555ffff6565ff66555555556564ffff
  0x1ff76ff76666676777676ff77ff65ff65645454645656ff5675ffff76766676766666ff7665ffff76646575756656ff66ffffffffffffffffffffffffffffffffffffffffffffffff6576ffff666666666665ff766475ffff656565656555ff667576ff76ff6666667665ff766364ff65ff6454655545ff556576ff7766ff66666666ff766364ff6464ff54655545ff556576ff666666ff766566ff677564ff766565ff656656ff666576ff66666676ff7566ff766464ff65656565ff6555ff557465ff6665656565ff56ff666565ff6565565556ff64ff657575ff767676666666ffff665665ff555566656664ffff66ffffffffffffffffffffffffffffffffffffffffffffffff6475ff65656565666555ffff6576ff66666676767566ffff
  0x1ffff7677766666677576ff66ffff6465655555656565ff66ffffffffffffffffffffffffffffffffffffffffffffffff76ffff66666656677566ff7663ffff55555454645455ff5575ff66ff666666766566ff7774ff65ff655555656465ff6675ff6566ff5555666465ff5674ff6566ff5565656565ff6665ff667666ff66666565ff6674ff656565ff65666465ff6675ff65666555ff666465ff5574ff65666555ff656465ff6665ff6566655555ff6455ff6674ff6565655555ff6465ff6575ff766766665666ff76ff7665ff656655555555ff64ff6575ff76766666666675ffff6664ff55555444445553ffff65ffffffffffffffffffffffffffffffffffffffffffffffff75ff7676666666677566ffff74ff6566655555556465ffff
  0x1ffff7677667665667665ff66ffff6566656564655555ff56ffffffffffffffffffffffffffffffffffffffffffffffff66ffff77767665667665ff6664ffff55545463545546ff4576ff77ff767776777666ff7765ff65ff646564656555ff5676ff6777ff7675667666ff6765ff6465ff6564655555ff5666ff667766ff65666665ff6665ff656565ff64656555ff5666ff76776666ff667566ff5765ff74656565ff656565ff5666ff6677666675ff6556ff6764ff6565656564ff6555ff5665ff757666667576ff66ff6765ff566665655455ff54ff5575ff75666565646666ffff5655ff66665555646564ffff56ffffffffffffffffffffffffffffffffffffffffffffffff65ff6576757665656656ffff66ff7676656665657566ffff
  0x1ffffffffffffffffffffffffffffffffffffffffffffffffffff6666665666576576ff66ffff6565545565656465ff66ff65ff55455565666456ff66ff64ff55555555556465ff65ff7555ff555666666456ff66ff6455ff444454545355ff55ff656666ff5555566466ff65ff645555ff4454555355ff55ff65566655ff55556456ff65ff64556454ff54556355ff55ff6455554444ff555355ff45ff6465655555ff656465ff65ff645555444456ff5345ff55ff645555444464ff5364ff65ff65666646555566ff66ff66ff65666555555455ff54ff55ff7566665555566664ffff56ff5344443333434442ffff54ffffffffffffffffffffffffffffffffffffffffffffffffff756666555566566456ffffff645555444455545365ffff
  0x1ffffffffffffffffffffffffffffffffffffffffffffffffffff7677767666676675ff66ffff6566746565666565ff56ff66ff76667666677675ff66ff54ff55535354554556ff45ff7776ff767676766676ff77ff6565ff646464645555ff56ff666566ff6666666576ff66ff656465ff6465655666ff56ff66667666ff66666675ff66ff65646464ff65655565ff56ff6676776666ff766566ff67ff6574656565ff655666ff66ff667577656576ff6566ff67ff656465646465ff5565ff56ff66756665757666ff66ff67ff65666665655556ff64ff55ff6575656464656556ffff56ff5566666555656664ffff56ffffffffffffffffffffffffffffffffffffffffffffffffff767576757575666666ffffff667666656565766566ffff)
 (mkT
  0x1ff767677766766667675ffffff766566655666666665ffff65ff7677666676666675ffff76ff7677766776777776ffff6676ff67665766766666ffff6565ff56645565655666ffff768777ff766677676776ffff657666ff655666666675ffff55656566ff6665556564ffff75667667ff6676767676ffff6676766766ff66666675ffff6465656665ff65655565ffff766666676657ff666675ffff657666676556ff666675ffff66766677666777ff6666ffff65766666655676ff6675ffff6566766765676666ff75ffff6676666765566666ff65ffff667776777667677776ffffff666555565546655555ffffffffffffffffffffffffffffffffffffffffffffffffffffffffffffffffffffffffffffffffffffffffffffffffffffff
  0x1ff777778776777677676ffffff777677766776676767ffff77ff7778766776677777ffff87ff8788777777777777ffff7787ff78776777677777ffff7676ff77766776677777ffff878877ff777777777777ffff768777ff766776677777ffff66766667ff6766577666ffff77777777ff7676766777ffff7777777777ff67677776ffff7676766776ff75666666ffff667666676657ff676676ffff777777777676ff767767ffff77777777676777ff7677ffff76767667756676ff6666ffff7777767776767667ff77ffff7777677776676667ff76ffff777776777667767677ffffff777767776667766776ffffffffffffffffffffffffffffffffffffffffffffffffffffffffffffffffffffffffffffffffffffffffffffffffffffff
  1
  1
  0x1ff6577776666656766ffff76ff6676666666756567ffff6664ff76766565656656ffff7575ff76667566667666ffff667576ff676657666666ffff765454ff455344545545ffff55757666ff7565766656ffff76646556ff6456655556ffff6554656666ff66555655ffff6574566656ff65756666ffff656576666765ff656666ffff666354665554ff645546ffff64656566676556ff6766ffff66656575666566ff7666ffff7565766766665776ff65ffff7664655556545565ff56ffff656455665664566566ffffff656566676666565666ffffff76ffffffffffffffffffffffffffffffffffffffffffffffffffffffffffffffffffffffffffffffffffffffffffffffff757676766666766767ffffff656566566455656556ffffff
  0x1ff6776777667677776ffff77ff7665666756666666ffff6667ff76776766667776ffff7777ff76777767677776ffff776676ff676656667766ffff776676ff777667676776ffff77778767ff7767776776ffff77667676ff7656667766ffff7756656566ff66566665ffff6667767667ff67767776ffff776777766777ff676766ffff776676677776ff667675ffff76766776776767ff7776ffff77777776777667ff7776ffff7766766666665777ff65ffff7667767667766677ff76ffff776776767767676777ffffff776666666665565666ffffff76ffffffffffffffffffffffffffffffffffffffffffffffffffffffffffffffffffffffffffffffffffffffffffffffff777776777767777777ffffff777776777667677776ffffff
  0x1ff66757676666666ff66ff76ff65555554445554ff56ff5566ff757666656666ff66ff7676ff656666556565ff66ff667776ff6767666676ff66ff777666ff6666657665ff66ff66767766ff76667665ff67ff66667665ff65556666ff65ff7666656465ff655555ff55ff6565656455ff556565ff66ff656676756666ff6666ff66ff767665646665ff6565ff56ff65766665666656ff66ff66ff66655664656555ff65ff56ff6567766566665677ffff66ff7666666565655576ffff66ff66ffffffffffffffffffffffffffffffffffffffffffffffff6666656665566665ffffff666675666666566666ffffff66ffffffffffffffffffffffffffffffffffffffffffffffff7667757676667666ff66ffff7666656665556665ff66ffff
  0x1ff66676766576667ff75ff66ff66756666666666ff66ff7666ff667766666667ff75ff7677ff767766677777ff76ff777666ff6766577677ff66ff776566ff6766576667ff65ff76667766ff66676667ff75ff76667666ff66576667ff75ff7655655666ff675556ff64ff6577777667ff777777ff76ff876666666667ff6667ff75ff766666666676ff6667ff75ff76766666676657ff67ff75ff66777776777767ff77ff76ff7676666667665776ffff66ff7666666667665766ffff75ff76ffffffffffffffffffffffffffffffffffffffffffffffff6677767777676777ffffff776555565655466556ffffff66ffffffffffffffffffffffffffffffffffffffffffffffff7777677777687767ff76ffff7666666766576666ff76ffff
  0x1ff666667667766ff7675ff76ff766566666666ff6666ff7666ff7667666666ff7675ff7676ff7677766767ff7676ff776676ff67666766ff6675ff766576ff67666666ff7665ff76777767ff776777ff7676ff76657666ff666676ff6675ff7655656556ff6655ff6564ff6576777677ff7677ff7776ff776676666767ff66ff6675ff766576666676ff66ff6675ff66766666676667ffff7675ff76767776777766ffff7676ff76ffffffffffffffffffffffffffffffffffffffffffffffff66767667667766ffff75ff7666665666656656ffff65ff6666777677767767ff76ffff7766666666565766ff66ffff76ffffffffffffffffffffffffffffffffffffffffffffffff76777767777777ff7776ffff66766667665767ff6676ffff
  0x1ff666677766766ff7665ff76ff666565656666ff6666ff6665ff6666656666ff6665ff7676ff7676766766ff7676ff776677ff77766776ff7676ff766565ff56645565ff5656ff66757666ff767676ff6666ff76657666ff656666ff6665ff6655655566ff6755ff6564ff6565667566ff7666ff6666ff766677667666ff66ff6665ff766465656665ff55ff5555ff65766666666556ffff6665ff66766675767666ffff7666ff76ffffffffffffffffffffffffffffffffffffffffffffffff65666666656766ffff65ff7666666666656656ffff65ff7666767676766767ff76ffff7656665666556665ff65ffff66ffffffffffffffffffffffffffffffffffffffffffffffff65766667656666ff6665ffff76666666655666ff6666ffff
  0x1ff6666776667ff677576ff76ff7665666656ff666666ff7666ff66676657ff676676ff6677ff76777667ff777676ff776676ff676657ff776666ff766575ff666556ff666666ff66777767ff7767ff677676ff77667666ff6657ff676676ff7666667666ff67ff667675ff7576767667ff66ff767677ff776676666767ffff676675ff766676666676ffff676566ff76ffffffffffffffffffffffffffffffffffffffffffffffff667766666657ffff6566ff76667666676657ffff6676ff77677676776667ff77ff76ff76666666666657ff66ff66ff76767776777767ff7776ffff77556556565546ff5655ffff66ffffffffffffffffffffffffffffffffffffffffffffffff777777777667ff777677ffff666666676657ff666676ffff
  0x1ff6666676657ff676675ff66ff6665666555ff656666ff6675ff76677666ff676676ff6676ff75666666ff666666ff766676ff676656ff776665ff676555ff566455ff665666ff56767766ff7666ff666676ff76756666ff7556ff666666ff6665766666ff67ff566666ff6575667667ff76ff667676ff667676766766ffff676675ff666465655665ffff565565ff55ffffffffffffffffffffffffffffffffffffffffffffffff767666666556ffff6566ff66656666666556ffff6675ff66756676676566ff67ff76ff66666666666556ff66ff65ff66756666676566ff6666ffff66666556565546ff5655ffff56ffffffffffffffffffffffffffffffffffffffffffffffff767676777667ff677776ffff666666676556ff666666ffff
  0x1ff66666676ff66676675ff66ff67656676ff66666666ff7666ff667666ff66677675ff7676ff667677ff66676675ff767667ff6677ff77776676ff766566ff6666ff66666665ff76667666ff67ff66676675ff76666666ff76ff66666675ff7655655566ffff55566564ff6576767666ffff77767776ff77ffffffffffffffffffffffffffffffffffffffffffffffff7666666666ffff676675ff767677767677ffff767776ff767667776677ff77ff6666ff766666666676ff66ff6675ff766676677777ff6667ff75ff765666565565ff5556ff64ff656777767777ff677776ffff776556665566ff666655ffff66ffffffffffffffffffffffffffffffffffffffffffffffff7677677777ff77676776ffff7667766676ff67666676ffff
  0x1ff76767777ff77777676ff77ff55645556ff65655566ff6675ff757776ff76766666ff7666ff756666ff66766676ff777676ff6677ff77767676ff777566ff6665ff76766666ff76757676ff76ff76766666ff76757665ff75ff76666666ff7666767566ffff66666665ff7676677566ffff66766676ff76ffffffffffffffffffffffffffffffffffffffffffffffff7676756666ffff666676ff676666756666ffff766666ff766676756766ff77ff6676ff777566756666ff66ff6666ff767666756666ff7676ff76ff767666666666ff6666ff75ff766676756767ff777666ffff776666655666ff666665ffff66ffffffffffffffffffffffffffffffffffffffffffffffff7677766776ff77777776ffff7666756665ff76666666ffff
  0x1ff666666ff5776676576ff67ff666566ff5676667666ff7666ff6677ff6666677575ff7666ff6666ff6666667575ff767666ff67ff5776776566ff776566ff66ff5666666675ff66667666ffff6766677675ff76766667ffff5676676676ff77ffffffffffffffffffffffffffffffffffffffffffffffff76677767ffff77677676ff7776766667ffff76677576ff7676666666ff57ff676576ff6676767677ff66ff767676ff7676666666ff5776ff6566ff7676666666ff5776ff6576ff7766666676ff676667ff75ff6666666666ff576667ff65ff7676777677ff67677776ffff7765555655ff46655654ffff66ffffffffffffffffffffffffffffffffffffffffffffffff77776777ff6777777676ffff66666666ff5766666576ffff
  0x1ff767677ff7777777676ff77ff656455ff5555555655ff6566ff7576ff6666666665ff6666ff7576ff6676666676ff767777ff76ff6767767766ff776555ff56ff6665666666ff66767775ffff7676766676ff76666665ffff6766666666ff76ffffffffffffffffffffffffffffffffffffffffffffffff76777576ffff66666666ff7675657666ffff66666676ff6577767677ff67ff677676ff7666667566ff66ff666666ff7677777676ff6676ff7676ff7776667566ff6676ff6676ff7676667566ff666666ff66ff7666666566ff666666ff65ff7676667667ff67767677ffff7666666666ff56666665ffff66ffffffffffffffffffffffffffffffffffffffffffffffff77777677ff7777677776ffff76667667ff6676766676ffff
  0x1ff6676ff666766677675ff76ff6675ff666566656666ff6665ff76ff666666666675ff7676ff76ff766666767676ff777677ffff676777777676ff776566ffff656665666665ff66ffffffffffffffffffffffffffffffffffffffffffffffff556565ffff5655566564ff65656675ffff7666667665ff76666676ff67ff66666665ff75646565ff65ff65655565ff65766676ff6667ff677675ff76756675ff7666ff766666ff76667666ff666766ff6565ff76656676ff666666ff6675ff75656676ff66676666ff75ff76666666ff65665656ff65ff76667776ff7776666676ffff77666666ff5656666665ffff76ffffffffffffffffffffffffffffffffffffffffffffffff767776ff676767677676ffff767766ff666666666676ffff
  0x1ff7777ff676767777776ff77ff6676ff666566666676ff7676ff77ff767677777776ff8777ff77ff676667777777ff877677ffff676667777776ff777576ffff666666666666ff76ffffffffffffffffffffffffffffffffffffffffffffffff667676ffff6666666675ff76767777ffff6677767776ff77767777ff77ff67676776ff87767777ff76ff66677676ff77767767ff6666ff677676ff77767777ff7666ff767776ff76767777ff676777ff7667ff76657666ff655676ff6665ff76767777ff66667777ff76ff87666777ff66665766ff76ff76667777ff7666677777ffff77666666ff5656665666ffff77ffffffffffffffffffffffffffffffffffffffffffffffff768777ff766777677776ffff767767ff666667677777ffff
  0x1ff55ff66655655566664ff65ff76ff66665666666665ff7555ffff66556555566664ff6566ffff66666656666775ff76ffffffffffffffffffffffffffffffffffffffffffffffff6677ffff666666666775ff665565ffff655555566664ff654454ff55ff5644455553ff546666ff66ff6666667675ff765565ff5656ff55565564ff655665ff6565ff55567664ff656555ff665556ff566664ff656666ff666666ff666675ff756666ff66665666ff6665ff755565ff66655565ff6664ff765565ff6666665556ff64ff655555ff5554454555ff54ff655666ff666666566776ffff666666ff666656665666ffff76ffffffffffffffffffffffffffffffffffffffffffffffff6666ff76766666577765ffff6666ff66655656666665ffff
  0x1ff76ff77676776777676ff77ff66ff66655566656667ff6675ffff77666676766666ff7676ffff77766676767776ff77ffffffffffffffffffffffffffffffffffffffffffffffff7576ffff766676766666ff766576ffff665666766666ff766576ff77ff6666666565ff667566ff67ff6676767766ff767676ff7767ff77777676ff777465ff6665ff65665656ff656676ff676657ff766666ff677676ff777766ff767767ff766676ff67675777ff6667ff776576ff67665676ff6666ff767566ff6765677676ff66ff766777ff7666676667ff75ff767677ff777667777676ffff775665ff565646656655ffff66ffffffffffffffffffffffffffffffffffffffffffffffff6676ff67665776776676ffff6676ff67665677766667ffff
  0x1ffff7777766767777676ff76ffff6566655566656666ff66ffffffffffffffffffffffffffffffffffffffffffffffff76ffff67665666776666ff7765ffff56645565655666ff6676ff66ff666676666676ff7776ff66ff655666666676ff7766ff6666ff5766666675ff6676ff7566ff6676767666ff7666ff666766ff66676675ff6675ff666675ff66666576ff7676ff66676656ff676566ff6676ff75666566ff766666ff7676ff6666665666ff6566ff6675ff6666655666ff6666ff7676ff766765676676ff76ff7666ff666665565666ff65ff6676ff76776666677676ffff7765ff56565545555655ffff66ffffffffffffffffffffffffffffffffffffffffffffffff76ff7677766777777777ffff76ff6667555665666676ffff
  0x1ffff7777777776677776ff76ffff7677776776777776ff77ffffffffffffffffffffffffffffffffffffffffffffffff77ffff77776776777666ff7765ffff67666665666666ff6677ff76ff777777777676ff8776ff76ff776776777776ff7766ff6676ff6665666665ff6666ff7566ff6676666666ff7666ff667677ff66676675ff7676ff766776ff75666666ff6676ff76776667ff677675ff6676ff76777766ff767676ff7766ff6676666777ff7566ff7676ff7677766776ff7776ff7776ff767767677677ff76ff7776ff767776676667ff76ff7776ff77777777667777ffff7766ff66676656756666ffff67ffffffffffffffffffffffffffffffffffffffffffffffff77ff7788877777778777ffff76ff7677776766767677ffff
  0x1ffffffffffffffffffffffffffffffffffffffffffffffffffff6666565666666566ff76ffff6666655666666566ff66ff65ff56554665665556ff66ff65ff56564665565566ff66ff7657ff665666566566ff66ff7556ff554665565566ff66ff655566ff5655566465ff65ff656656ff6665666566ff66ff66665656ff66566566ff76ff65565665ff65566466ff65ff6556565546ff565565ff56ff6666666656ff666576ff76ff655655554666ff5456ff65ff655656554665ff5566ff66ff66666657576666ff76ff76ff76666756566666ff66ff76ff7666676657666765ffff66ff5445454435544544ffff55ffffffffffffffffffffffffffffffffffffffffffffffffff666767665777676667ffffff655556554656555566ffff
  0x1ffffffffffffffffffffffffffffffffffffffffffffffffffff7677767666676775ff66ffff7677767777777676ff77ff76ff77776766677675ff66ff55ff56645565665766ff66ff7776ff767677776776ff77ff6666ff656666666775ff66ff656566ff6655566664ff55ff667566ff6676767776ff76ff76666766ff66676675ff66ff66756675ff76675666ff66ff7776777667ff777676ff77ff6675667666ff666766ff76ff767677766777ff7676ff77ff666666756676ff6675ff67ff66766775676667ff75ff66ff66666766576667ff65ff66ff6676677566666667ffff76ff6667666656766765ffff67ffffffffffffffffffffffffffffffffffffffffffffffffff777677766777677776ffffff667667756676766676ffff)
 (mkT
  0x1ff6675766666666676ff66ffff5352534343434344ff44ff66ff75766666766666ff66ff64ff63645454545455ff55ff6666ff665665566566ff66ff6364ff646464546455ff55ff667665ff6675666566ff66ff646463ff5454545455ff55ff66756465ff65555565ff56ff54546364ff54645455ff55ff5665646566ff555565ff66ff6464636464ff545455ff65ff666564655555ff6565ff65ff545463645454ff5455ff55ff55656475555666ff55ff65ff64646364545464ff55ff55ff6565746565655565ffff56ff6565646555555555ffff65ffffffffffffffffffffffffffffffffffffffffffffffffff656564656655656556ffffff656564656565555565ffffffffffffffffffffffffffffffffffffffffffffffffffffff
  0x1ff6675766666766666ff76ffff6555555554544456ff55ff66ff75766666666566ff76ff76ff65666565665566ff66ff7776ff676676676666ff77ff7666ff667665666566ff66ff767766ff7665766667ff66ff667665ff6666655565ff76ff76666566ff66665666ff66ff65566465ff65655556ff65ff6776656677ff665666ff76ff6666656576ff655566ff66ff666564655555ff6555ff65ff656564556565ff5566ff65ff66767566666666ff66ff76ff76656466656565ff56ff65ff6666656666656556ffff66ff6675666666666656ffff66ffffffffffffffffffffffffffffffffffffffffffffffffff766775767666766666ffffff766665666665655566ffffffffffffffffffffffffffffffffffffffffffffffffffffff
  0x1ff6675766666666666ffff66ff5352534343434344ffff5466ff75766666666666ffff6664ff63645454545455ffff556666ff666555566566ffff666465ff646464656455ffff65667665ff6565666566ffff76656463ff5454545455ffff6556656465ff65555566ffff6554546364ff54545455ffff656665646565ff555556ffff655454636454ff645455ffff65666564655555ff6565ffff56545463645454ff5455ffff6556656465565566ff65ffff6665646364545464ff55ffff656565646555656565ffffff666565646565655555ffffff65ffffffffffffffffffffffffffffffffffffffffffffffffffffffffffffffffffffffffffffffffffffffffffffffff667665656666665666ffffff656564655555656565ffffff
  0x1ff6776776776777776ffff77ff5564654554545455ffff5566ff76766675667667ffff7666ff75666565566566ffff666766ff665776667566ffff767666ff666665667567ffff66667665ff6665666566ffff76666675ff5666656566ffff6676667576ff66666666ffff7665566455ff65656556ffff655665646666ff555655ffff657666756566ff756566ffff66776675765666ff7666ffff66555574656565ff6566ffff6566667565576666ff66ffff6666657466556565ff56ffff656666756656656566ffffff666766657656666666ffffff76ffffffffffffffffffffffffffffffffffffffffffffffffffffffffffffffffffffffffffffffffffffffffffffffff767675766676666667ffffff666675665665656566ffffff
  1
  1
  0x1ff55646555555555ffff5555ff52414232323232ffff434355ff646565556555ffff555563ff525343434343ffff54545655ff5645544554ffff55556564ff5354535453ffff5454566555ff55545554ffff6565545352ff43434343ffff545455545354ff544444ffff455443435253ff435343ffff54544554536455ff4445ffff55545453525353ff4343ffff5454555453544444ff54ffff5445434352535343ff43ffff545445545364444555ffffff545554535253434353ffffff5454ffffffffffffffffffffffffffffffffffffffffffffffffffffffffffffffffffffffffffffffffffffffffffffffff5565545555455555ffffff655454535454544444ffffff545565545555555545ffff65ff5454535444445454ffff54ff
  0x1ff76767777676777ffff7777ff55646555555555ffff555577ff767776677767ffff777766ff757666666666ffff66667767ff7667666776ffff67767676ff7676667676ffff6676677675ff66666666ffff7776766665ff66666666ffff666666666566ff666666ffff666666667576ff666666ffff66666766757666ff6666ffff76767666756666ff6666ffff6666776675666666ff76ffff6667666675766666ff66ffff666667666576666676ffffff666676667576666666ffffff6666ffffffffffffffffffffffffffffffffffffffffffffffffffffffffffffffffffffffffffffffffffffffffffffffff6676757676666666ffffff767676757666666666ffffff767776757676666666ffff77ff6666757666666676ffff66ff
  0x1ff666566666666ff75ff6676ff545344545444ff55ff555466ff7566666676ff66ff666665ff6455556565ff66ff66656766ff65666556ff66ff66667576ff65666566ff66ff6666667665ff667566ff66ff6676666564ff656565ff66ff666666656455ff6555ff65ff566555656455ff6565ff66ff66655665645666ff55ff65ff66656565645565ff55ff66ff6665767665666666ffff66ff6666655564556565ffff66ff6665ffffffffffffffffffffffffffffffffffffffffffffffff56656456666655ffffff666566655455556555ffffff6565ffffffffffffffffffffffffffffffffffffffffffffffff66666566776666ff66ffff7665656455666555ff65ffff6577766656766667ff67ff77ff66656466555566ff55ff65ff
  0x1ff667576666666ff66ff6666ff535253434443ff35ff444466ff7465656665ff56ff656664ff6364545554ff46ff55556665ff75556656ff66ff66665453ff54545444ff55ff4454766564ff656665ff56ff6675646463ff545554ff45ff555566656465ff6655ff55ff566554546364ff5564ff46ff55555665647566ff55ff55ff66656564636464ff54ff46ff5555566564655556ffff55ff6556545463646455ffff46ff5555ffffffffffffffffffffffffffffffffffffffffffffffff65646464656555ffffff555566656565565656ffffff6565ffffffffffffffffffffffffffffffffffffffffffffffff65656474655565ff56ffff6665656465656555ff55ffff6565646365545554ff46ff55ff55656465555665ff55ff65ff
  0x1ff6665766666ff6665ff6666ff5453544444ff5444ff546466ff64655555ff6555ff655655ff64656555ff6565ff65666766ff665665ff7656ff66767566ff656565ff6566ff6576677665ff6666ff7566ff6676666564ff5555ff6555ff656566766566ff66ff6666ff666555556465ff55ff6565ff65656666656566ffff6665ff76756665646565ffff6565ff7665ffffffffffffffffffffffffffffffffffffffffffffffff566664765556ffff55ff6566666564655555ffff55ff6576666675666666ff66ffff6665666655665656ff66ffff6575ffffffffffffffffffffffffffffffffffffffffffffffff666665666656ff6666ffff76666665666666ff6665ffff75667675666666ff6666ff76ff666664655555ff6555ff65ff
  0x1ff6675766666ff6666ff6666ff4352434343ff4345ff443475ff75667666ff6666ff766654ff63545454ff5445ff45556576ff665665ff5566ff66656464ff646564ff6456ff5555656665ff6665ff6566ff6666535463ff5454ff5445ff554565656465ff65ff5565ff565564656465ff65ff6556ff55565565646566ffff5665ff66555454635464ffff5456ff5545ffffffffffffffffffffffffffffffffffffffffffffffff546564655556ffff55ff6556645463545454ffff56ff5545655463545454ff54ffff5545656565665656ff56ffff6565ffffffffffffffffffffffffffffffffffffffffffffffff646564656555ff6556ffff56646564556565ff5555ffff55657564656565ff5556ff66ff645564655555ff6555ff65ff
  0x1ff66656676ff666666ff6676ff54535454ff444445ff645466ff657676ff666666ff667665ff646555ff655556ff65656766ff6666ff566566ff76666566ff6566ff666566ff7675566564ff66ff555555ff6665666564ff65ff555556ff756566656465ffff555555ff566555656465ffff655556ff7565ffffffffffffffffffffffffffffffffffffffffffffffff7666656666ffff6666ff65666555646565ffff5556ff65656666657566ff66ff66ff75766565646565ff55ff56ff65656766656566ff6666ffff75666665545555ff5555ffff6565ffffffffffffffffffffffffffffffffffffffffffffffff6666656666ff666666ffff666665646566ff555555ffff656676656676ff665656ff76ff7666656566ff666566ff75ff
  0x1ff66757666ff666666ff6666ff43524344ff434334ff344466ff747566ff656556ff656554ff635454ff545445ff45556666ff6566ff566565ff56666455ff5455ff656456ff4555667664ff66ff656556ff5575646463ff54ff545445ff455565656465ffff555556ff566554556354ffff545445ff4555ffffffffffffffffffffffffffffffffffffffffffffffff6665646556ffff6555ff55565454635454ffff5445ff45555565646556ff66ff55ff65666554635455ff64ff45ff45555454635455ff6454ffff45556665646565ff5555ffff5665ffffffffffffffffffffffffffffffffffffffffffffffff6564636455ff545446ffff655555645565ff555556ffff656675646465ff655556ff66ff6555645555ff656555ff55ff
  0x1ff666566ff66666665ff6666ff445354ff44545454ff545566ff6576ff66766665ff666665ff6465ff55556555ff65656656ff66ff65667666ff66677566ff65ff65656576ff6666666665ffff66666566ff6676665564ffff55656565ff6566ffffffffffffffffffffffffffffffffffffffffffffffff66667575ffff666665ff667666656465ffff656565ff666666556465ff55ff6565ff655655556465ff55ff6565ff656556556466ff5665ff65ff656666556465ff5565ff65ff656666556465ff556565ffff655666566566ff566666ffff6566ffffffffffffffffffffffffffffffffffffffffffffffff77676666ff57766676ffff7766656465ff65555555ffff6567667576ff66766666ff66ff65556465ff55656565ff65ff
  0x1ff667576ff66666666ff6666ff435243ff43434334ff344465ff7475ff65656556ff656554ff6354ff54545445ff45456666ff65ff65566556ff65666464ff64ff54556446ff5565657664ffff65656556ff6575656463ffff55545445ff4555ffffffffffffffffffffffffffffffffffffffffffffffff65656465ffff555556ff566565646464ffff656455ff555566656465ff55ff6555ff555654546354ff54ff5445ff455556656465ff5566ff65ff556665546354ff5464ff45ff455565546354ff545454ffff455556656465ff655555ffff6665ffffffffffffffffffffffffffffffffffffffffffffffff54546364ff54645445ffff6565556455ff65555556ffff6565756465ff65655556ff66ff65556455ff55656555ff55ff
  0x1ff6675ff7666666676ff6776ff5453ff5444444455ff545466ff75ff7666666666ff667665ff64ff5555655566ff65656766ffff6666566576ff76666465ffff6565555566ff6565ffffffffffffffffffffffffffffffffffffffffffffffff656564ffff55555565ff5665556564ffff55655566ff6565566564ff66ff555665ff6565656564ff65ff555566ff6565666665ff6666ff6665ff6665655564ff6555ff5566ff6565566564ff665555ff65ff6665656564ff655555ff66ff6565666675ff66666665ffff6666565564ff55554555ffff6555ffffffffffffffffffffffffffffffffffffffffffffffff666675ff6666566666ffff66656564ff5555555565ffff65767665ff6656665666ff76ff656664ff6565655565ff65ff
  0x1ff7675ff6666776666ff7667ff5454ff5463545345ff455576ff75ff7675767567ff667665ff65ff6574656456ff56666666ffff6675566566ff66667665ffff6574656456ff5666ffffffffffffffffffffffffffffffffffffffffffffffff667665ffff75666566ff6776656564ffff64656456ff5656667675ff76ff666566ff6676756564ff65ff656456ff5666677665ff6665ff6566ff6666656564ff6564ff6456ff5655667666ff667566ff66ff6666656463ff545454ff46ff5555656564ff65646565ffff5656677665ff66656666ffff6666ffffffffffffffffffffffffffffffffffffffffffffffff757565ff6564656556ffff66666665ff7675666566ffff76657564ff6565655456ff66ff666665ff6675766566ff66ff
  0x1ff65ff666656565676ff6666ff64ff545554454456ff555466ffff766666665676ff667665ffff655665565566ff6665ffffffffffffffffffffffffffffffffffffffffffffffff6776ffff6665666666ff66765555ffff5555465566ff65556665ff65ff55565565ff65655665ff65ff65555566ff65656665ff6556ff565565ff65656665ff6556ff565566ff65656666ff665656ff6675ff65666655ff656565ff5566ff66656666ff65565656ff65ff65656665ff65565556ff66ff65656776ff6666656656ffff66765554ff5545454545ffff5454ffffffffffffffffffffffffffffffffffffffffffffffff6666ff666656566666ffff666665ff655655565565ffff656665ff666666565666ff66ff6665ff655655566665ff65ff
  0x1ff66ff767666677677ff6777ff54ff545343445345ff454566ffff667665766566ff667665ffff655554646456ff5656ffffffffffffffffffffffffffffffffffffffffffffffff6666ffff6665667566ff66766565ffff6454556456ff56566666ff66ff65566566ff56665564ff65ff54656456ff55555766ff6666ff566566ff66666564ff6464ff556456ff55556766ff666555ff6566ff66666455ff656554ff6456ff56566666ff76655566ff66ff66666565ff65645465ff56ff56566565ff6564555564ffff56566766ff6666665665ffff6666ffffffffffffffffffffffffffffffffffffffffffffffff6675ff656655657456ffff666666ff666565556566ffff667675ff656564656557ff56ff6666ff666555656566ff66ff
  0x1ffff75766666666676ff7666ffff53544444445454ff5454ffffffffffffffffffffffffffffffffffffffffffffffff66ffff665665566665ff667674ffff656555656566ff656566ff65ff6666666565ff667665ff64ff5555556565ff656666ff6465ff55556565ff655665ff6465ff55556565ff656566ff757566ff666665ff656665ff646565ff656565ff656565ff64655555ff6565ff655555ff64656555ff6555ff656555ff6466555655ff64ff556665ff6465555555ff65ff656576ff756666666666ffff666666ff656656565656ffff6565ffffffffffffffffffffffffffffffffffffffffffffffff76ff65666656666666ffff7665ff74655565656565ffff6566ff75766666666665ff66ff65ff64655555555565ff65ff
  0x1ffff75767666666666ff6666ffff54555454635445ff5545ffffffffffffffffffffffffffffffffffffffffffffffff67ffff766766666666ff766666ffff656565657557ff565666ff75ff7676767667ff767665ff64ff6565646556ff565677ff6677ff76756666ff676754ff6354ff54545445ff455566ff657676ff656666ff676665ff646565ff646556ff565666ff65766666ff6666ff665654ff63545454ff5456ff554556ff7576666665ff66ff666765ff7465656564ff56ff565665ff646565656465ffff565666ff657666666666ffff6666ffffffffffffffffffffffffffffffffffffffffffffffff65ff74656565656556ffff6666ff65666676656666ffff6666ff65767675656556ff67ff66ff75666666656566ff66ff
  0x1ffffffffffffffffffffffffffffffffffffffffffffffffffff65766666666665ff6666ffff64655555556565ff6565ff65ff666665666665ff6666ff75ff656666666675ff6666ff7566ff6666666575ff6666ff6554ff5555656564ff6555ff655566ff56555664ff5565ff556465ff55656555ff6565ff65656555ff555664ff6565ff65656666ff666565ff6666ff6554555555ff6554ff6556ff6564655555ff6565ff6566ff645465555555ff64ff5555ff666566666566ff65ff6666ff66757666666676ffff6666ff66666656565656ffff6565ffffffffffffffffffffffffffffffffffffffffffffffffff6665666666666665ffff66ff6565665555555664ffff65ff7565766666666675ff66ffff6564655555556564ff65ff
  0x1ffffffffffffffffffffffffffffffffffffffffffffffffffff75666666766666ff6666ffff64656465656556ff5656ff66ff665665666666ff6676ff65ff657565657457ff6666ff6665ff6666666566ff7676ff6564ff6464656556ff5656ff656465ff65555556ff5665ff546354ff54545456ff5545ff66757566ff666666ff6666ff64636564ff545546ff6555ff7675666666ff6666ff7666ff5463545454ff5445ff4555ff656476555666ff55ff6566ff657464656565ff56ff5555ff65746565656565ffff5656ff66756666666666ffff6676ffffffffffffffffffffffffffffffffffffffffffffffffff6564656555656556ffff56ff6675666565666666ffff66ff7574756565656556ff66ffff6675666565666666ff66ff)
 (mkT
  0x1ff6666666666655575ff66ffff6665766666666665ff66ff66ff67776666766665ff76ff66ff66776666656675ff66ff7676ff667777666676ff77ff6555ff666465655555ff56ff757666ff6666666665ff76ff656666ff6565655565ff66ff76666666ff66655565ff66ff75656666ff66666675ff66ff7666666676ff655565ff66ff7465666665ff655555ff65ff656556665556ff6564ff65ff656556665556ff5564ff65ff66666676666666ff65ff76ff65655665555665ff64ff65ff7566766765676666ffff66ff6555555555555444ffff56ffffffffffffffffffffffffffffffffffffffffffffffffff757666766666766665ffffff766666666566655566ffffffffffffffffffffffffffffffffffffffffffffffffffffff
  0x1ff6667676667665775ff66ffff6675666666666666ff76ff66ff66776667666675ff76ff77ff76777777666776ff77ff7666ff677677665766ff77ff6566ff676667665765ff76ff667766ff6667666775ff76ff667666ff6667665775ff76ff76666667ff67665775ff66ff77777677ff77776776ff76ff7666666776ff665766ff76ff6666666766ff665775ff76ff556556665556ff6764ff65ff777776677777ff7776ff87ff66666666666767ff75ff76ff66666666666776ff75ff76ff6677767767777767ffff77ff6555565665565546ffff66ffffffffffffffffffffffffffffffffffffffffffffffffff777767777767776876ffffff766666676666665776ffffffffffffffffffffffffffffffffffffffffffffffffffffff
  0x1ff7677777666766676ffff77ff6675766666666666ffff6676ff77776777776776ffff7776ff76776666666676ffff777777ff777677777676ffff777676ff666566766666ffff67778776ff7767776776ffff77767766ff6666766666ffff7776666676ff67666665ffff6676766676ff76766675ffff677676766676ff766676ffff776576667666ff766665ffff66766666666666ff6675ffff66667666766666ff6675ffff7677777676776776ff76ffff7776766676666666ff75ffff767676767776677777ffffff776666666665556555ffffff66ffffffffffffffffffffffffffffffffffffffffffffffffffffffffffffffffffffffffffffffffffffffffffffffff767776777666776776ffffff777776777667766676ffffff
  0x1ff6667775766766776ffff67ff7776776767776776ffff7767ff77776777676776ffff7777ff77776777776776ffff777777ff676777766776ffff777676ff776777666776ffff77777767ff6767766776ffff77767767ff6777766776ffff7777676677ff77666776ffff7777776777ff77766776ffff776666566676ff655765ffff767777777767ff766676ffff67666666665666ff6775ffff66777777777677ff7776ffff7776777767676776ff76ffff7766666777566666ff75ffff767777777767777777ffffff776666666656666556ffffff66ffffffffffffffffffffffffffffffffffffffffffffffffffffffffffffffffffffffffffffffffffffffffffffffff777767777677776776ffffff777777776777766776ffffff
  1
  1
  0x1ff76767767777767ffff7777ff55646555555555ffff555577ff767777677667ffff777766ff757666666666ffff66667767ff7667766766ffff76677676ff7676767666ffff7666677675ff66666666ffff7677766665ff66666666ffff666677667566ff766666ffff676666667576ff666666ffff66666766657676ff6666ffff66667666757666ff6666ffff6666666665666666ff66ffff6666666675766666ff66ffff666667667576666666ffffff767676667566666666ffffff6666ffffffffffffffffffffffffffffffffffffffffffffffffffffffffffffffffffffffffffffffffffffffffffffffff7776757666667666ffffff776666757666766666ffffff666676757666667666ffff76ff7676757666666666ffff76ff
  0x1ff66676765566556ffff6666ff77767767676767ffff777776ff677776677667ffff777777ff777776677667ffff77778877ff7777777777ffff77778676ff6776677667ffff7777777767ff66676667ffff7777767767ff66666666ffff777776665666ff666557ffff667677766777ff667676ffff77677766667777ff6667ffff77777666576676ff6556ffff6766766656666557ff66ffff7666777667777676ff66ffff677777666677666777ffffff777776665766655676ffffff6667ffffffffffffffffffffffffffffffffffffffffffffffffffffffffffffffffffffffffffffffffffffffffffffffff7777677776677676ffffff777777677777677667ffffff777777677776767667ffff77ff7777677776677767ffff77ff
  0x1ff666657666765ff75ff6666ff667566667666ff76ff677676ff7767767777ff76ff776776ff7666767766ff76ff67777666ff56766765ff66ff67666465ff56656655ff56ff6665767767ff677766ff66ff6677756666ff666675ff65ff666775666656ff6665ff66ff666676777666ff7776ff76ff77777566665676ff65ff65ff66667566665666ff65ff66ff6666667666666667ffff75ff7666767676767777ffff76ff7776ffffffffffffffffffffffffffffffffffffffffffffffff76777667777766ffffff777765555545555654ffffff5655ffffffffffffffffffffffffffffffffffffffffffffffff75667766767766ff66ffff7675666656666665ff66ffff6676766657766777ff77ff77ff65666666666766ff75ff66ff
  0x1ff665776666765ff75ff6666ff667576666666ff66ff666666ff6776666776ff75ff766776ff6677757666ff66ff67677677ff76777776ff76ff77666455ff66646555ff55ff5665667666ff666766ff75ff7676656656ff656665ff65ff666675665676ff6665ff65ff666676766676ff6676ff75ff76676566567776ff65ff65ff66666566567665ff65ff65ff6666656556655556ffff64ff6556667666766667ffff75ff6676ffffffffffffffffffffffffffffffffffffffffffffffff75666777666766ffffff667665554666656654ffffff5655ffffffffffffffffffffffffffffffffffffffffffffffff66766776666776ff65ffff7675665677656665ff66ffff6655655666555665ff64ff65ff76766676666766ff65ff76ff
  0x1ff6667776667ff6775ff7666ff7665766666ff6665ff766655ff56665556ff6764ff655666ff76766666ff6675ff66767677ff777777ff6776ff77766465ff665556ff6665ff5565667666ff6667ff7775ff6676657666ff6667ff6675ff666666766777ff67ff6775ff766676767677ff67ff7776ff76777666667776ffff6775ff76766576666666ffff6775ff6666ffffffffffffffffffffffffffffffffffffffffffffffff656766766667ffff65ff6676556556765556ffff64ff6576656677776667ff77ffff6677666556665666ff56ffff6675ffffffffffffffffffffffffffffffffffffffffffffffff666666766667ff7775ffff76766667776667ff6776ffff76667667676667ff6775ff76ff657766776667ff6675ff66ff
  0x1ff6557665556ff5664ff6556ff6675766666ff6676ff766676ff77777777ff6776ff776766ff66677666ff5676ff67667666ff676677ff6676ff67576465ff665556ff5655ff6556757666ff6667ff6765ff7667756666ff6666ff5665ff665676666667ff66ff5666ff665675767676ff66ff6776ff76677666666776ffff5666ff66567465666565ffff5665ff6556ffffffffffffffffffffffffffffffffffffffffffffffff756666766667ffff65ff7666656556665556ffff64ff6556757676766667ff67ffff6666655556565555ff45ffff5645ffffffffffffffffffffffffffffffffffffffffffffffff757666766667ff6665ffff67766666676666ff5666ffff56667666666666ff5775ff76ff656666776667ff6665ff66ff
  0x1ff66576666ff655766ff6566ff66657666ff666665ff666676ff677776ff766776ff767776ff667676ff666776ff76777777ff6767ff666766ff76767566ff6666ff655666ff6666666656ff76ff655765ff6676756656ff76ff655766ff667676665666ffff655766ff667676776676ffff666776ff7677ffffffffffffffffffffffffffffffffffffffffffffffff7666666666ffff6765ff75667676667676ffff6776ff77766666667776ff66ff75ff76767566566666ff65ff65ff65767677677777ff6667ffff76776555455555ff5446ffff5665ffffffffffffffffffffffffffffffffffffffffffffffff7677667777ff766776ffff777666566666ff655766ffff766666566676ff665776ff77ff7676666767ff666776ff76ff
  0x1ff76676677ff766675ff6767ff66756666ff666666ff666676ff777777ff777776ff767766ff667776ff766676ff67777677ff7777ff776686ff67777576ff6666ff666666ff6776767776ff77ff777776ff7777656656ff65ff655665ff666676777667ffff766666ff677766766676ffff766675ff6767ffffffffffffffffffffffffffffffffffffffffffffffff6676666666ffff6775ff76676676767666ffff6675ff66777677766777ff76ff76ff77776676666666ff76ff75ff66777677767767ff7777ffff76776666665666ff6555ffff5766ffffffffffffffffffffffffffffffffffffffffffffffff7677767667ff766676ffff777676666766ff666676ffff676676666666ff766775ff66ff7677667776ff766776ff77ff
  0x1ff555666ff56656664ff6556ff667576ff66666675ff666666ff6777ff67766775ff766676ff6676ff66766675ff76677767ff77ff77677776ff77677565ff66ff66656665ff6666766666ffff67666775ff7667766666ffff67666675ff7666ffffffffffffffffffffffffffffffffffffffffffffffff66776677ffff766775ff767676666666ffff666675ff766765555666ff56ff6664ff655676777677ff77ff7776ff777766666676ff6666ff65ff766665555666ff5665ff64ff656666666677ff677667ffff767766566566ff665556ffff6666ffffffffffffffffffffffffffffffffffffffffffffffff76666677ff67767775ffff7766665666ff66655766ffff7676776677ff77776776ff77ff66666677ff67666675ff76ff
  0x1ff756776ff76766776ff7666ff667576ff66666666ff666676ff6677ff67666775ff766776ff6677ff76766676ff67677776ff76ff76766676ff77676565ff66ff66666666ff6666777676ffff77777776ff7777767666ffff76766676ff7667ffffffffffffffffffffffffffffffffffffffffffffffff76767677ffff766666ff666776757676ffff766676ff766666756676ff66ff6675ff666666766676ff66ff7675ff667776767677ff7777ff76ff767776756676ff6666ff75ff666686767677ff677777ffff777766655666ff656555ffff6656ffffffffffffffffffffffffffffffffffffffffffffffff66766676ff66767675ffff6777767667ff77766667ffff6777766677ff76776776ff76ff76767677ff77777776ff77ff
  0x1ff6667ff6657655676ff6676ff6675ff6666666676ff676676ff77ff7667676776ff777777ff76ff7666666676ff77777677ffff7767666776ff77777566ffff6556655666ff6666ffffffffffffffffffffffffffffffffffffffffffffffff766666ffff56655665ff6676767676ffff66666676ff7676766666ff66ff655665ff6576756666ff66ff655665ff6776767666ff6667ff6675ff6666767666ff6666ff6675ff7676666666ff665665ff65ff6676756666ff665665ff65ff6676767777ff66676667ffff7777655556ff55455445ffff5665ffffffffffffffffffffffffffffffffffffffffffffffff767777ff7766766776ffff77666666ff5656555666ffff66766666ff6657675676ff76ff766676ff6666665766ff77ff
  0x1ff6667ff6666766775ff7667ff7675ff6666666666ff766766ff67ff6667677775ff766777ff76ff7676666676ff77777677ffff7776766776ff77676576ffff6666666765ff7666ffffffffffffffffffffffffffffffffffffffffffffffff766767ffff67666665ff7667777666ffff66777676ff7677767767ff77ff666676ff6676667666ff66ff666675ff7667566556ff5556ff6664ff6556767666ff6666ff6675ff7666767666ff666766ff75ff7677556556ff555665ff64ff6566767777ff67776777ffff7677666666ff66655555ffff6666ffffffffffffffffffffffffffffffffffffffffffffffff667666ff7666766675ffff77767777ff6677666676ffff77667666ff6666765675ff76ff767666ff6667666675ff76ff
  0x1ff55ff665565544666ff5665ff66ff665666565676ff666665ffff776566665666ff666666ffff666565555566ff6666ffffffffffffffffffffffffffffffffffffffffffffffff6666ffff6666565666ff76766555ffff5565544566ff56656555ff66ff65544556ff55656666ff76ff75655565ff66666555ff6665ff544555ff56656555ff6665ff544566ff56656665ff665566ff5665ff65556665ff766675ff6566ff66656666ff66566656ff56ff66666555ff65556564ff66ff56667666ff7766666556ffff67665444ff5544544334ffff4554ffffffffffffffffffffffffffffffffffffffffffffffff6666ff766666655566ffff666555ff666555544556ffff656565ff666565664666ff66ff6666ff665666555566ff66ff
  0x1ff77ff777767766786ff7777ff67ff767666666677ff676776ffff777777777776ff777777ffff777677777776ff7777ffffffffffffffffffffffffffffffffffffffffffffffff7677ffff7767766776ff77777677ffff7667766776ff77777677ff77ff67766776ff76777677ff77ff76777776ff76777676ff7777ff666775ff76666566ff6665ff666665ff66666676ff666666ff6675ff66677677ff777777ff6776ff77777576ff77666776ff76ff66777677ff77766776ff76ff77777677ff7766777777ffff67777666ff6666566556ffff6766ffffffffffffffffffffffffffffffffffffffffffffffff7677ff777767777766ffff777677ff776667766776ffff776676ff676667766775ff76ff7677ff777767777776ff77ff
  0x1ffff67776667666675ff7667ffff75766666666676ff7666ffffffffffffffffffffffffffffffffffffffffffffffff77ffff777777677776ff767765ffff676566656665ff666676ff66ff6667667775ff766676ff66ff6666666675ff766665ff5666ff56556664ff655676ff7676ff66667675ff667676ff667766ff666665ff756675ff666666ff666665ff766665ff56665556ff6664ff655576ff66766666ff6675ff766766ff6666666666ff65ff756665ff5676555655ff64ff657676ff777766676677ffff767666ff666655565555ffff6666ffffffffffffffffffffffffffffffffffffffffffffffff76ff66776667666775ffff7776ff67775766666676ffff6776ff76777777776776ff76ff76ff66776666666675ff76ff
  0x1ffff67676666655676ff6766ffff75767676666676ff6766ffffffffffffffffffffffffffffffffffffffffffffffff76ffff677677755776ff676765ffff676667656666ff666677ff67ff7767766776ff777776ff66ff7676655676ff676676ff6667ff66655676ff676666ff6676ff76766675ff676776ff666776ff655666ff766676ff666676ff655676ff666666ff66766667ff6675ff665677ff76766666ff6675ff666676ff7666666766ff65ff767666ff6676666765ff75ff666676ff767777677667ffff777765ff565665565445ffff5655ffffffffffffffffffffffffffffffffffffffffffffffff77ff77776777766776ffff7776ff66676666655666ffff6666ff66677667765676ff77ff76ff77776777766676ff77ff
  0x1ffffffffffffffffffffffffffffffffffffffffffffffffffff66766667666775ff7666ffff66766666656675ff6666ff66ff666666666675ff6666ff65ff565556656664ff6556ff6556ff5556656664ff6566ff6556ff5556655564ff6556ff666666ff67666765ff6566ff655665ff55656564ff6556ff65556666ff555664ff6665ff65565555ff655664ff6556ff5445554445ff5653ff5445ff6566655555ff6564ff5565ff555565555656ff64ff6565ff644665444564ff53ff5465ff66676656565666ffff6566ff66666656656656ffff6666ffffffffffffffffffffffffffffffffffffffffffffffffff7556665556656664ffff66ff6666666656665675ffff66ff7666666666665665ff66ffff6556665556665564ff65ff
  0x1ffffffffffffffffffffffffffffffffffffffffffffffffffff77777677776776ff7767ffff76777677776776ff7777ff77ff777677776777ff7767ff66ff676566566666ff6666ff7776ff7677777776ff7777ff7777ff6677676776ff7767ff666677ff67666775ff6666ff777677ff76776776ff7777ff77777776ff676766ff7667ff76767675ff666766ff7667ff6666776667ff6675ff7667ff7776777677ff6776ff7777ff777677667777ff76ff7777ff666677666766ff75ff7667ff77877776777777ffff6777ff66676655666656ffff6656ffffffffffffffffffffffffffffffffffffffffffffffffff7776777677676766ffff77ff7777776666676777ffff67ff7776776677776776ff77ffff7777776677777776ff77ff)
 (mkT
  0x1ff65666655665555ff6566ffff64646563656464ff5555ff64ff667665666565ff5565ff63ff656464656364ff5555ff7566ff6666566666ff6566ff5142ff4342444242ff3343ff646566ff65665565ff5566ff625354ff53535353ff4454ff54656666ff665555ff5456ff64636565ff656464ff5565ff6465566665ff5555ff6466ff6253535453ff5353ff4454ff646556665556ff65ff5565ff625354545354ff53ff4454ff64555666555665ffff5565ff62535453535453ffff4454ffffffffffffffffffffffffffffffffffffffffffffffffff6354655564555454ffff55ff5354555544455454ffff54ff6465656565566565ff55ffff6364655564655454ff54ffffffffffffffffffffffffffffffffffffffffffffffffffff
  0x1ff65777765676666ff6676ffff66766675656666ff6766ff64ff767665666565ff5675ff75ff766666767566ff6666ff7576ff6766666657ff6676ff5454ff4554555344ff4555ff757666ff76667565ff5676ff646556ff65556456ff5665ff65656667ff676556ff6666ff65657566ff766566ff6675ff6576676676ff6657ff6576ff6465555665ff5455ff5665ff546566665556ff66ff5565ff745666567566ff65ff6665ff65766667656665ffff6666ff63546655645554ffff4664ffffffffffffffffffffffffffffffffffffffffffffffffff6455665665666456ffff65ff6566676656666656ffff76ff7576767676676666ff67ffff6565665665656455ff56ffffffffffffffffffffffffffffffffffffffffffffffffffff
  0x1ff76767666666666ff76ff77ff64636454545454ff55ff5575ff767666776676ff66ff7673ff646464646464ff55ff557676ff7776666776ff76ff776253ff5353545353ff44ff44757676ff76666666ff66ff76636464ff64546465ff55ff5565656576ff666666ff65ff6664646474ff656465ff56ff557576656676ff6666ff65ff766364646464ff6464ff55ff55756665766666ff66ff66ff66636564646465ff64ff55ff6565666566666666ffff65ff6673646464646464ffff55ff55ffffffffffffffffffffffffffffffffffffffffffffffff7465756565656565ffffff566465656555565565ffffff65ffffffffffffffffffffffffffffffffffffffffffffffff7475757575656566ff56ffff7465756565656565ff65ffff
  0x1ff66677656666666ff65ff66ff66756665656666ff66ff6665ff767666766575ff56ff6675ff666666666566ff66ff667576ff6766666667ff65ff665444ff5544555354ff45ff45747566ff65666565ff55ff65645566ff55656465ff55ff5565666676ff676666ff65ff7665656566ff766566ff65ff656465566665ff5556ff54ff656455656655ff6465ff55ff55656666765666ff76ff56ff66745566566566ff65ff65ff5565666666566665ffff65ff5663546655546554ffff45ff54ffffffffffffffffffffffffffffffffffffffffffffffff6455665655666456ffffff555555566645555565ffffff66ffffffffffffffffffffffffffffffffffffffffffffffff6465666665765565ff56ffff6555666655656465ff56ffff
  0x1ff55666644554455ffff5555ff63656454545454ffff646454ff666654565456ffff555562ff646353545354ffff54546465ff5655565556ffff55554041ff4231333133ffff3232646556ff55555555ffff5555515253ff42444244ffff434353545555ff554445ffff455463545464ff545354ffff54555354455554ff4445ffff55545152444342ff4243ffff4343535455554445ff55ffff5445635454645354ff54ffff555453544555444554ffffff545551524443424342ffffff4343ffffffffffffffffffffffffffffffffffffffffffffffffffffffffffffffffffffffffffffffffffffffffffffffff5354565554455455ffffff555253545453544345ffffff535354565554555445ffff55ff5253545443455354ffff53ff
  0x1ff66877766776676ffff6766ff76767675667676ffff766765ff777766676666ffff666776ff767776766576ffff76676666ff6766565667ffff66666455ff5654565554ffff6555657667ff66676666ffff7666656666ff65656665ffff666655667667ff665666ffff566666757676ff666666ffff75666566676765ff5666ffff66666465656655ff6555ffff6556656677676566ff66ffff6666746566666566ff65ffff655655666766565666ffffff656665666665656666ffffff6666ffffffffffffffffffffffffffffffffffffffffffffffffffffffffffffffffffffffffffffffffffffffffffffffff6676676766576666ffffff776566766665655665ffffff666566666665666665ffff76ff6566677766666666ffff76ff
  1
  1
  0x1ff667766666655ffff656666ff767566656566ffff76666665ff6667656766ffff65666665ff7666666665ffff6566666565ff56656655ffff6466655354ff45545544ffff555544757666ff666666ffff656666646565ff655555ffff55655554656656ff6655ffff64566575756666ff7666ffff7576656465565665ff55ffff6466656364545564ff54ffff556554656566666667ffffff656666646665666566ffffff666655ffffffffffffffffffffffffffffffffffffffffffffffffffffffffffffffffffffffffffffffffffffffffffffffff64655656656655ffffff655564656656655655ffffff656575666667666766ffff65ff7664656555656555ffff64ff5565666656766766ffff6676ff54656666555665ffff5565ff
  0x1ff646675546655ffff556565ff646464646555ffff56555563ff6665646554ffff45646563ff6564646554ffff4555456576ff66665766ffff6666664142ff43424432ffff244333636466ff646554ffff466564525354ff535443ffff35544554645665ff6654ffff54556564646565ff6564ffff4565556465566665ff55ffff5466655253545453ff43ffff355444636455655456ffffff456455635465556455ffffff455555ffffffffffffffffffffffffffffffffffffffffffffffffffffffffffffffffffffffffffffffffffffffffffffffff63546554646554ffffff554554555665454555ffffff546563646564645554ffff45ff6553545555546544ffff44ff5452535554535443ffff3554ff63545555545554ffff4564ff
  0x1ff6677675566ff66ff566666ff6575666466ff65ff66656654ff66665556ff66ff55655665ff66766566ff66ff6675666576ff666657ff66ff6676655354ff554345ff54ff445454657667ff6667ff66ff666666546566ff5455ff56ff55656565656666ff67ff66ff65666565656576ff66ff76ff6675766566666666ffff66ff6666755465655654ffff65ff556565ffffffffffffffffffffffffffffffffffffffffffffffff546556665556ffffff556566546556655456ffffff556565ffffffffffffffffffffffffffffffffffffffffffffffff656567666567ff66ffff6665455556554545ff56ffff5465656666666657ff66ff66ff76656566666566ff66ff55ff65646566666566ff65ff5675ff546566665455ff65ff5565ff
  0x1ff6566665556ff56ff656555ff6464656465ff55ff56555564ff76666566ff65ff56655563ff54546455ff55ff4545456465ff666556ff66ff6565565132ff334244ff33ff343323746566ff6566ff65ff556555624344ff5344ff44ff45443454656666ff66ff55ff64565574546555ff65ff65ff5555456465566665ffff56ff6465556243444453ffff44ff454434ffffffffffffffffffffffffffffffffffffffffffffffff635455555456ffffff555445624355445344ffffff454434ffffffffffffffffffffffffffffffffffffffffffffffff624355445354ff44ffff4434646556554545ff55ffff5455646565656556ff65ff55ff56635455456455ff45ff54ff44636465646465ff55ff4665ff634555555455ff55ff5554ff
  0x1ff66677666ff5566ff656566ff66656665ff6665ff66766565ff677665ff6667ff65667675ff667666ff6566ff6565667566ff6766ff6667ff6566765354ff5554ff4445ff456454646556ff65ff5556ff546665646556ff65ff5556ff55655554655666ffff5556ff54566575756666ffff6666ff657575ffffffffffffffffffffffffffffffffffffffffffffffff6565666666ffff67ff6565667465666575ffff65ff6576656566666666ff66ffff6575666364565464ff54ffff556554ffffffffffffffffffffffffffffffffffffffffffffffff6465676565ff6556ffff65566455666555ff5556ffff64656566666676ff6667ff65ff766465556565ff5556ff54ff656465676565ff5556ff5576ff6566666666ff6566ff6575ff
  0x1ff75767665ff6666ff666676ff54635454ff5454ff56455574ff757675ff6576ff56656663ff646464ff5465ff4655557475ff6665ff6566ff5666656354ff5454ff5454ff454555747575ff65ff6566ff566665525354ff53ff4354ff35544465656566ffff6566ff65666664656465ffff6465ff565656ffffffffffffffffffffffffffffffffffffffffffffffff7465656665ffff65ff5665666465646564ffff65ff5656566465656665ff65ffff6565566364646564ff54ffff465555ffffffffffffffffffffffffffffffffffffffffffffffff7465646565ff6565ffff56566465666655ff6555ffff65567465746565ff6565ff56ff666364655564ff5455ff45ff546364656564ff5465ff4665ff6354656564ff5465ff4664ff
  0x1ff556666ff566566ff666566ff667576ff666666ff76657665ff7677ff666566ff66666675ff6666ff666465ff5565567566ff67ff576667ff6666665344ff55ff455354ff445445656666ffff676666ff656666645566ffff556455ff556556ffffffffffffffffffffffffffffffffffffffffffffffff65666666ffff6667ff65766664556556ffff6465ff55655664556666ff56ff66ff55655675666576ff66ff75ff66766664555666ff5665ffff65655664555665ff5664ffff556555ffffffffffffffffffffffffffffffffffffffffffffffff64556666ff566566ffff655655455655ff455555ffff545566666766ff577667ff66ff7764655665ff655556ff54ff6575656676ff676566ff5676ff64556566ff556465ff6565ff
  0x1ff757676ff666666ff667666ff546354ff545454ff46455565ff7576ff666666ff66656664ff6464ff656565ff5655557675ff76ff666676ff7676664342ff43ff544344ff444333757575ffff666666ff666665545354ffff555455ff555444ffffffffffffffffffffffffffffffffffffffffffffffff65656576ffff6666ff65666654535454ffff5454ff55544465656576ff66ff66ff65656664646465ff65ff55ff55555565646565ff6665ffff66655554536454ff5454ffff555444ffffffffffffffffffffffffffffffffffffffffffffffff54536554ff656455ffff544465656666ff565666ffff656664656465ff656565ff56ff6665646555ff665556ff65ff5465647565ff655565ff5565ff55546565ff666566ff6664ff
  0x1ff6676ff66675566ff656666ff6564ff64655565ff66656565ff76ff65666666ff65667664ff75ff65656465ff5566557576ffff76676667ff7566765253ffff53454343ff445443ffffffffffffffffffffffffffffffffffffffffffffffff546565ffff565556ff645665656465ffff665555ff657564646556ff65ff5556ff646565636454ff64ff5454ff556554756566ff6666ff66ff556665736565ff6465ff64ff556564646556ff655655ffff646655636465ff645554ffff556454ffffffffffffffffffffffffffffffffffffffffffffffff646566ff65665555ffff6555646566ff55565555ffff6565756666ff66676666ff65ff76636465ff54545454ff54ff54646566ff65565556ff5675ff646565ff65656455ff6565ff
  0x1ff7577ff65665666ff667666ff6565ff64746565ff66565674ff76ff65766576ff56756674ff66ff65656465ff5656567576ffff66666667ff6576666354ffff54645354ff464545ffffffffffffffffffffffffffffffffffffffffffffffff657567ffff666566ff656666757475ffff757565ff566656747566ff65ff6566ff556665636465ff64ff5465ff465556646566ff6566ff66ff566566636466ff6465ff54ff555545756667ff666675ffff666666525355ff535443ffff355444ffffffffffffffffffffffffffffffffffffffffffffffff636466ff64656455ffff5545656656ff56566666ffff6566747566ff75656565ff56ff66646566ff65665566ff55ff65636465ff64655454ff4565ff746566ff65666566ff5665ff
  0x1ff55ff6665665556ff645665ff65ff7565666666ff75667655ffff6656665556ff64566564ffff6565655556ff646565ffffffffffffffffffffffffffffffffffffffffffffffff6576ffff66666666ff7566665364ffff64545455ff5455544554ff55ff554445ff5345546565ff75ff655556ff6476655554ff5554ff4445ff5355545465ff6665ff5556ff6455556455ff665556ff56ff5455556465ff666565ff66ff6566656465ff66555655ffff6565655465ff55656555ffff545565ffffffffffffffffffffffffffffffffffffffffffffffff6566ff6666665666ffff66667565ff6666666556ffff65656665ff6665675556ff64ff655454ff6554544445ff53ff546566ff6666666656ff6566ff6465ff6555555555ff6465ff
  0x1ff65ff7655666566ff666666ff65ff6565656574ff57565664ffff7665666566ff56656674ffff7575756575ff566656ffffffffffffffffffffffffffffffffffffffffffffffff7475ffff75666566ff5566656364ffff64655465ff4655556465ff66ff665556ff5556657465ff65ff656565ff5665567566ff6666ff6666ff6576765253ff5453ff4354ff3554446475ff666566ff66ff5665667465ff656565ff65ff5656566465ff66555665ffff5565656364ff65646554ffff465555ffffffffffffffffffffffffffffffffffffffffffffffff7465ff6675666565ffff66566566ff5656566666ffff65666465ff6565566565ff56ff666465ff6665665566ff55ff656364ff6564655465ff4665ff7465ff6665666566ff5675ff
  0x1ffff767755665666ff666666ffff646564556565ff666565ffffffffffffffffffffffffffffffffffffffffffffffff75ffff6666566677ff66766652ffff5443454353ff44534475ff66ff66666666ff66666663ff65ff54545455ff55645564ff6666ff565566ff65655675ff7565ff666565ff66746575ff666666ff6666ff65656663ff645554ff5464ff55645564ff66665555ff66ff55655573ff65656465ff64ff55646564ff5566555555ffff55655663ff5564545554ffff556454ffffffffffffffffffffffffffffffffffffffffffffffff74ff666565666555ffff655654ff565545454555ffff546565ff666666576666ff66ff7664ff656655656465ff55ff5574ff667565665566ff5675ff63ff656554545454ff5564ff
  0x1ffff767666676566ff656666ffff756665757566ff666656ffffffffffffffffffffffffffffffffffffffffffffffff76ffff7776677566ff66766753ffff4443555243ff35443475ff76ff76776566ff66766664ff55ff54546354ff46554566ff6776ff676566ff65666664ff6465ff656465ff56565665ff666666ff6566ff65766664ff545554ff6354ff46554565ff66766666ff65ff56665674ff65656565ff64ff56564665ff5666656774ffff66655663ff6554545553ffff465545ffffffffffffffffffffffffffffffffffffffffffffffff64ff665554656355ffff554556ff666656566565ffff655674ff757565666565ff56ff6665ff665665666455ff55ff5564ff656565656464ff4666ff65ff666656666465ff5665ff
  0x1ffffffffffffffffffffffffffffffffffffffffffffffffffff676656576566ff666666ffff656556556566ff666565ff65ff5655466566ff676566ff53ff5454554444ff556454ff7656ff56566656ff666566ff6455ff45455555ff655465ff656666ff565656ff666565ff646665ff556565ff667465ff66665656ff5656ff666565ff64556545ff5555ff665465ff6556554545ff56ff655455ff6566665656ff66ff666565ff655655454555ffff565465ff645655454555ffff655465ffffffffffffffffffffffffffffffffffffffffffffffffff75676656566556ffff6566ff54454434345445ffff4354ff65565655476556ff66ff66ff65666555565556ff65ff65ff65676655566656ff6665ffff64565545455555ff6554ff
  0x1ffffffffffffffffffffffffffffffffffffffffffffffffffff767765666666ff656666ffff656564656565ff665656ff76ff6775676667ff766667ff43ff4452444344ff454434ff7666ff65666676ff666666ff5455ff63555455ff565545ff666667ff665666ff655666ff656565ff656565ff666656ff76566765ff5666ff756666ff54555563ff5455ff565545ff6667676556ff66ff666666ff6564656465ff65ff565656ff656666645665ffff666556ff545555635554ffff565545ffffffffffffffffffffffffffffffffffffffffffffffffff54655563555455ffff5545ff56676655565666ffff6566ff65656675566565ff66ff67ff65665664655556ff65ff55ff65656574656565ff5666ffff55666664565566ff6665ff)
 (mkT
  0x1ff66777767777676ff7677ffff66756665666666ff6566ff66ff767766677666ff7577ff66ff767766766566ff7567ff6666ff6656665565ff6566ff6566ff6656656565ff6566ff667666ff67766667ff6577ff666666ff55656565ff6567ff66767667ff676666ff7566ff65657676ff766666ff7566ff5565666666ff6555ff6466ff6675756666ff6565ff6566ff666676665666ff75ff6566ff557566665566ff55ff6466ff56667676666666ffff5566ff55656665556665ffff7466ffffffffffffffffffffffffffffffffffffffffffffffffff6666767766775766ffff77ff5555655545555454ffff55ff6676767666666666ff75ffff6677767766666666ff75ffffffffffffffffffffffffffffffffffffffffffffffffffff
  0x1ff67767767777667ff7677ffff76656666666756ff6666ff67ff767766776766ff7677ff77ff767767777767ff7677ff6676ff6766776656ff6677ff6676ff7767677667ff7677ff778767ff77677767ff7677ff667676ff66777656ff6677ff76677677ff776767ff7677ff77777677ff777667ff7677ff6676666677ff6657ff6576ff6776766777ff7666ff7677ff566565665666ff66ff6566ff677676677677ff67ff7677ff67777667676777ffff6677ff66766777667676ffff7576ffffffffffffffffffffffffffffffffffffffffffffffffff6776767767776767ffff77ff6666666656666556ffff76ff7777767777777767ff77ffff7777767767777667ff76ffffffffffffffffffffffffffffffffffffffffffffffffffff
  0x1ff76767766777776ff76ff77ff76666655656665ff66ff6677ff767766777777ff76ff7777ff767766666666ff76ff777776ff7766766676ff76ff777676ff7766766676ff76ff76778777ff77667776ff76ff77667666ff66666666ff65ff7677667676ff776677ff76ff7766667576ff766666ff65ff666676656676ff6666ff65ff766676656666ff6666ff75ff66777676766676ff76ff66ff66666665766676ff66ff65ff7666767676666666ffff65ff6666767676666666ffff75ff76ffffffffffffffffffffffffffffffffffffffffffffffff7776767767766766ffffff776665666655655565ffffff66ffffffffffffffffffffffffffffffffffffffffffffffff7777767776766767ff76ffff7676767766766666ff76ffff
  0x1ff66776757677677ff76ff67ff66756667666666ff66ff7666ff667766676667ff75ff7677ff767767677766ff76ff776666ff6757676667ff65ff766566ff6756666667ff65ff76667666ff67666667ff75ff76666666ff57676667ff75ff7666666666ff676667ff75ff7676677677ff777777ff76ff775565566666ff5556ff64ff657677776767ff7677ff76ff77666676665767ff77ff76ff66777776766777ff77ff76ff7666667667576766ffff65ff7666666667566766ffff75ff76ffffffffffffffffffffffffffffffffffffffffffffffff6677767767776777ffffff775555665646565566ffffff66ffffffffffffffffffffffffffffffffffffffffffffffff7777677767777767ff76ffff6666766757676666ff76ffff
  0x1ff66877766766677ffff6667ff76767676767566ffff677665ff777766666667ffff676676ff767765767676ffff67766666ff6756676656ffff66666455ff5655545456ffff5565657667ff66666667ffff6676656666ff66656565ffff666665667767ff666566ffff666674656666ff656566ffff56655566676666ff5656ffff66656566666566ff6566ffff6666556676675666ff66ffff6656667576766666ff66ffff667565666767566665ffffff666664656566655555ffffff5665ffffffffffffffffffffffffffffffffffffffffffffffffffffffffffffffffffffffffffffffffffffffffffffffff6566666666656566ffffff766566677766666666ffffff766676676766666657ffff77ff6566766656656565ffff66ff
  0x1ff77877777777777ffff7777ff76756666666666ffff666667ff767766676667ffff777777ff767766776677ffff77776666ff6755665566ffff66666677ff7766776677ffff7777677677ff66776677ffff7777676676ff56765676ffff676767777667ff776667ffff677767767677ff766676ffff76675665766666ff5666ffff66665666766666ff6566ffff6767677776676667ff77ffff7767677676776676ff76ffff677656657666566666ffffff666656667666656666ffffff6767ffffffffffffffffffffffffffffffffffffffffffffffffffffffffffffffffffffffffffffffffffffffffffffffff6776767766676676ffffff776777767767766777ffffff776776767766766667ffff77ff6777767767776776ffff77ff
  1
  1
  0x1ff777667776776ffff767777ff656456656655ffff56666566ff7667666766ffff65776666ff7566667776ffff6576765565ff56666655ffff6466656566ff67666666ffff756776667666ff677766ffff756676566565ff656665ffff64667666766567ff6766ffff65667666767566ff7666ffff6577665565655666ff55ffff6466656676756676ff66ffff657776667666776677ffffff757666666675666676ffffff656675ffffffffffffffffffffffffffffffffffffffffffffffffffffffffffffffffffffffffffffffffffffffffffffffff66667667667757ffffff776766666656565665ffffff666666667567766766ffff65ff7666766566666666ffff65ff7667767657767767ffff6677ff56656566566666ffff7566ff
  0x1ff677776677776ffff667767ff667575656666ffff66667666ff6676666666ffff65766667ff7676667766ffff6677665666ff76667765ffff6566656566ff66566565ffff556666667667ff667766ffff757776566666ff666665ffff65676666776676ff6766ffff65676665767676ff7666ffff6566665565567666ff55ffff6476655666667666ff65ffff656766666676665666ffffff556656667666766677ffffff656675ffffffffffffffffffffffffffffffffffffffffffffffffffffffffffffffffffffffffffffffffffffffffffffffff66667676667757ffffff776645556666555654ffffff565666766676766666ffff65ff7666776676666666ffff65ff7655655676656655ffff6466ff66667667566666ffff5666ff
  0x1ff6676776767ff67ff767676ff6564655555ff65ff66556556ff65665666ff76ff65665667ff76766676ff76ff7676765665ff665666ff66ff6666655566ff665666ff66ff666676667676ff6777ff76ff666776566575ff5666ff66ff66666566766667ff67ff77ff75667666767677ff76ff76ff7676766666766667ffff66ff6576756675756666ffff66ff666666ffffffffffffffffffffffffffffffffffffffffffffffff566675675666ffffff566666566565665666ffffff756676ffffffffffffffffffffffffffffffffffffffffffffffff677675666666ff76ffff6667455466554555ff55ffff5565666676776767ff76ff76ff76676676766767ff66ff76ff76677776676776ff67ff6677ff566675665666ff65ff7666ff
  0x1ff6677675667ff76ff766657ff7675666666ff66ff66666676ff77777777ff67ff76777666ff65666666ff66ff6666675665ff665566ff66ff6466566566ff675665ff66ff656656667666ff6677ff67ff657766666676ff5676ff66ff65675676767667ff67ff67ff75666675767667ff76ff67ff7666666566666666ffff56ff6576656666756666ffff66ff656656ffffffffffffffffffffffffffffffffffffffffffffffff666676665666ffffff556656556566665566ffffff746656ffffffffffffffffffffffffffffffffffffffffffffffff657666666666ff56ffff6665555566564555ff55ffff5546667676777666ff66ff75ff66667776676776ff66ff76ff66667667666666ff57ff6577ff566676665666ff65ff6666ff
  0x1ff77777767ff7777ff767677ff76657566ff6666ff66766666ff677676ff6667ff75767677ff767677ff7677ff7676766676ff6767ff6667ff7576765565ff6665ff5556ff646665556556ff66ff5556ff646665667666ff66ff6666ff75777666766666ffff6667ff75667666766676ffff6666ff757666ffffffffffffffffffffffffffffffffffffffffffffffff6676776766ffff77ff7576666776667676ffff66ff7566756676677667ff66ffff6576766676657666ff66ffff657676ffffffffffffffffffffffffffffffffffffffffffffffff6666667766ff5767ffff77665666666656ff6556ffff65766676667676ff6667ff75ff766677667667ff6667ff75ff766676567776ff6667ff6576ff6776766667ff6766ff7676ff
  0x1ff77767777ff7776ff766777ff65646556ff5555ff55566577ff757676ff6666ff66677666ff657666ff6666ff6667766776ff7667ff6666ff6567666666ff6667ff7676ff766776677776ff77ff7677ff766776566665ff66ff6566ff65676677777576ffff6666ff66677666666576ffff6666ff656766ffffffffffffffffffffffffffffffffffffffffffffffff6777767767ffff77ff6667666666657666ffff66ff6567766676766667ff66ffff6567666676656666ff66ffff756776ffffffffffffffffffffffffffffffffffffffffffffffff7777767767ff6767ffff77765666666656ff6565ffff56667776757667ff6666ff66ff766777757767ff6667ff66ff766676766666ff6667ff7567ff6777767767ff7666ff6667ff
  0x1ff567667ff666676ff666657ff667576ff667576ff66666666ff7777ff677767ff76777676ff7566ff666676ff7666766556ff67ff666666ff6566666556ff67ff666667ff666667766777ffff777777ff667777655676ffff666666ff666766ffffffffffffffffffffffffffffffffffffffffffffffff66666677ffff6667ff65767675667667ffff7666ff66676765567667ff66ff76ff65666676667677ff76ff76ff76777665567667ff6666ffff56666665567666ff6666ffff756667ffffffffffffffffffffffffffffffffffffffffffffffff76677677ff776677ffff776754456656ff555555ffff555676677777ff677776ff76ff7766676666ff666666ff75ff6676677677ff767767ff6777ff65567666ff666665ff6666ff
  0x1ff767676ff767676ff767777ff656455ff556565ff66556676ff7677ff776677ff76776766ff7566ff666676ff7667676665ff76ff766666ff7576667676ff76ff766676ff767767767676ffff767776ff767777667675ffff766676ff766767ffffffffffffffffffffffffffffffffffffffffffffffff66767576ffff6666ff65666677767666ffff7676ff76776767767566ff66ff76ff66666666766566ff66ff76ff75677667767566ff6666ffff66666766657566ff6666ffff756666ffffffffffffffffffffffffffffffffffffffffffffffff67767566ff666766ffff667656656566ff655565ffff665666666566ff666666ff75ff6677777677ff777777ff76ff7767767677ff766767ff7677ff66667566ff666666ff6666ff
  0x1ff7776ff77677777ff767776ff7675ff66666665ff66666666ff76ff76676667ff75767677ff76ff66776676ff7677766676ffff66676666ff7577766566ffff66666566ff656666ffffffffffffffffffffffffffffffffffffffffffffffff666666ffff676666ff656675657676ffff666666ff756666556566ff66ff5556ff646565566566ff65ff5556ff646665667677ff6667ff66ff657665667676ff6666ff66ff756675556566ff665655ffff646665667675ff666766ffff657676ffffffffffffffffffffffffffffffffffffffffffffffff676676ff66675767ffff7767666666ff55565555ffff6666667676ff76676666ff75ff76667776ff66666666ff75ff76677676ff76576767ff6676ff667676ff66676656ff6677ff
  0x1ff7777ff67767677ff767767ff7665ff66756666ff66677676ff77ff77767777ff76777777ff76ff67767676ff7677766676ffff66766667ff7577666576ffff66667667ff667677ffffffffffffffffffffffffffffffffffffffffffffffff777776ffff767777ff767777667676ffff767776ff767776667666ff67ff6666ff756676667666ff66ff6666ff757776667666ff6666ff77ff656666667666ff6676ff66ff757765667777ff677676ffff667766556556ff556665ffff646666ffffffffffffffffffffffffffffffffffffffffffffffff666667ff66775767ffff7766566666ff56656565ffff6667667666ff66766666ff75ff76777776ff77766766ff76ff77667666ff66766656ff6577ff667777ff67666676ff6677ff
  0x1ff66ff6666666666ff756666ff66ff6666656666ff65666555ffff6665665556ff64666566ffff7666666566ff656665ffffffffffffffffffffffffffffffffffffffffffffffff6676ffff66666657ff6576665565ffff65665555ff6466655565ff56ff565556ff6455655665ff65ff655555ff6466554454ff6555ff4445ff5355545665ff6565ff5556ff6466655665ff665556ff66ff6465565665ff656565ff65ff7455646666ff66666666ffff6566754554ff65545554ffff635565ffffffffffffffffffffffffffffffffffffffffffffffff5655ff6655664656ffff66566766ff6656656656ffff66665565ff7665665556ff64ff655566ff6656655556ff64ff655665ff7665665646ff5566ff6666ff6656665666ff7566ff
  0x1ff67ff7767687777ff777777ff66ff6666665665ff66676666ffff7767677776ff76777777ffff7766777776ff777777ffffffffffffffffffffffffffffffffffffffffffffffff6676ffff67676667ff7577766666ffff57676676ff7667777676ff77ff676776ff7677776576ff77ff767676ff6666766676ff7767ff6667ff7576766676ff6666ff6666ff6577766666ff675767ff77ff6666667766ff776777ff66ff7677766666ff67576767ffff6666776666ff67576766ffff766677ffffffffffffffffffffffffffffffffffffffffffffffff7777ff7767776777ffff77765655ff5646565566ffff55667677ff7767666676ff66ff777777ff7767676776ff76ff776666ff6756676677ff7566ff6666ff6757676766ff6766ff
  0x1ffff777766676777ff767777ffff656666666576ff666666ffffffffffffffffffffffffffffffffffffffffffffffff66ffff6755665666ff66666665ffff6756655666ff76667676ff77ff66676777ff66777766ff76ff55665666ff66676666ff6667ff665666ff65665676ff7677ff766776ff76767766ff767666ff6666ff65767666ff766665ff6666ff65666666ff76675566ff66ff65666566ff75766666ff66ff75667666ff7666556656ffff55666665ff7666556656ffff756676ffffffffffffffffffffffffffffffffffffffffffffffff76ff767766676667ffff776655ff665644554555ffff556676ff767766666776ff76ff7776ff766756666666ff76ff6776ff767766766767ff6677ff66ff666655565655ff7666ff
  0x1ffff767766777566ff666767ffff757666667666ff766667ffffffffffffffffffffffffffffffffffffffffffffffff66ffff7766766566ff65676665ffff6766766566ff66676677ff77ff77777677ff66777766ff76ff66767566ff66676776ff7777ff777667ff76777666ff6566ff666666ff75666666ff667666ff6566ff65676666ff767776ff7566ff66676766ff76776677ff76ff66665777ff76766676ff76ff75666667ff7677667776ffff56666666ff6676667765ffff756766ffffffffffffffffffffffffffffffffffffffffffffffff76ff767777776667ffff776656ff666655666455ffff565677ff767767777667ff76ff7776ff777767777667ff76ff7767ff677777776666ff6677ff67ff767666766665ff6767ff
  0x1ffffffffffffffffffffffffffffffffffffffffffffffffffff666766566666ff667676ffff666655656565ff666666ff65ff5645556455ff565556ff65ff5646566566ff675566ff7666ff56666566ff566666ff6566ff45556455ff565656ff666666ff566556ff666666ff666566ff656565ff656566ff66666656ff6556ff556565ff65665655ff6455ff565656ff5566564555ff66ff555546ff7566665665ff65ff666666ff656656455565ffff465555ff656655455564ffff665566ffffffffffffffffffffffffffffffffffffffffffffffffff66766656666667ffff6657ff54554534445344ffff4455ff76666656566565ff66ff66ff66666656566555ff66ff66ff66666656657656ff5666ffff65655545555564ff6655ff
  0x1ffffffffffffffffffffffffffffffffffffffffffffffffffff767776776667ff757766ffff767776777777ff767777ff66ff6766766667ff757766ff66ff6766656667ff766766ff7666ff77776666ff757766ff6676ff66666666ff757766ff666667ff676667ff756666ff778677ff767777ff766777ff65666666ff5556ff646655ff77767676ff7777ff767767ff6776776677ff76ff767776ff7675667666ff76ff766676ff667577666766ffff656666ff667677667676ffff756767ffffffffffffffffffffffffffffffffffffffffffffffffff77767776766767ffff6776ff56766755666666ffff6657ff76767777766667ff75ff66ff77777767766667ff75ff66ff77767777777767ff7677ffff67767766767766ff6677ff)
 (mkT
  0x1ff666676666766ff756676ffff656465555565ff655565ff66ff6676666776ff757676ff66ff6576656665ff656666ff7676ff66676766ff656676ff6455ff65545555ff546555ff556555ff555666ff645565ff656555ff555565ff646565ff65666666ff6766ff656566ff75656576ff6666ff756675ff6566667666ff66ff666566ff6465556555ff65ff646565ff656555655556ffff646565ff656555655556ffff646565ffffffffffffffffffffffffffffffffffffffffffffffffff65666676566766ffff7666ff55555665555655ffff5465ff76766676666767ff75ff76ff55544554444554ff53ff54ff65765666665766ff6566ffff65666666656666ff7565ffffffffffffffffffffffffffffffffffffffffffffffffffff
  0x1ff666666666776ff756666ffff676566666676ff666676ff66ff6676666766ff757676ff76ff6676666777ff756676ff7667ff66777777ff766676ff6566ff66666666ff656676ff667666ff666767ff756676ff666666ff666676ff756676ff76666666ff6766ff756676ff76777676ff7677ff767776ff7667776677ff77ff666676ff6666666666ff76ff756676ff556555665556ffff646565ff767676667776ffff767777ffffffffffffffffffffffffffffffffffffffffffffffffff67777677677777ffff7677ff65566655666666ffff5566ff66766777666777ff75ff76ff56665655555665ff64ff65ff76776777776777ff7667ffff76677666676676ff7666ffffffffffffffffffffffffffffffffffffffffffffffffffff
  0x1ff766676666777ff7676ff76ff656465555565ff6556ff7566ff6676666777ff7566ff7666ff6566666666ff7565ff667777ff66766677ff7676ff777576ff66656666ff6576ff66667665ff666666ff7566ff66667665ff665666ff6566ff7676666676ff6666ff7576ff7676666576ff6676ff7566ff767677667677ff77ff7676ff766566556666ff66ff6566ff76766665666666ffff7566ff66667665766666ffff7566ff76ffffffffffffffffffffffffffffffffffffffffffffffff76766677676767ffff67ff7766666665666666ffff65ff6577777676776777ff76ffff7665655555555555ff64ffff65ffffffffffffffffffffffffffffffffffffffffffffffff76776666666766ff7566ffff76766566666666ff7566ffff
  0x1ff666677576676ff7676ff66ff666576566666ff6666ff7667ff6777676767ff7676ff7777ff6676676767ff7676ff766676ff67676766ff7566ff766566ff77566666ff6566ff76666666ff566666ff7566ff76666666ff566666ff7566ff7666666677ff6766ff7675ff7676666677ff7676ff7676ff767666666666ff66ff6665ff756666667656ff65ff7566ff66666666665666ffff7566ff66677676766666ffff7677ff76ffffffffffffffffffffffffffffffffffffffffffffffff66666677576766ffff76ff7766656666566666ffff65ff7576777677667776ff76ffff7755555566455555ff64ffff65ffffffffffffffffffffffffffffffffffffffffffffffff77777777677777ff7667ffff66666666566666ff7676ffff
  0x1ff666776556666ff65ff6665ff666566666565ff66ff657665ff6776666765ff65ff766675ff6676656666ff65ff66657566ff67666766ff65ff76665354ff55444554ff45ff5464646556ff555665ff54ff6566646556ff555665ff55ff556565656666ff6766ff65ff666574656665ff6575ff65ff65766566666666ff66ff65ff66756364565454ff64ff55ff5465546556665556ffff54ff6556757566666666ffff65ff7575ffffffffffffffffffffffffffffffffffffffffffffffff64656765655665ffffff566564556665555655ffffff6564ffffffffffffffffffffffffffffffffffffffffffffffff64656765555665ff55ffff7665666666656666ff65ffff7565666666666776ff65ff76ff64655565555665ff54ff65ff
  0x1ff777777777767ff76ff7776ff766575666666ff66ff667666ff6776666776ff75ff767677ff7676767777ff76ff76766676ff67666767ff75ff76765565ff66555665ff64ff6566556556ff555666ff64ff6566667666ff666666ff75ff767766767767ff7766ff75ff667667766676ff6676ff75ff75666676677666ff67ff65ff76766676657666ff66ff65ff7676667666666667ffff75ff7666667666766666ffff75ff6676ffffffffffffffffffffffffffffffffffffffffffffffff66666677576766ffffff667756666666655656ffffff7665ffffffffffffffffffffffffffffffffffffffffffffffff66765677666776ff65ffff7667767666676667ff76ffff7666766676666776ff75ff76ff66776676666767ff75ff76ff
  0x1ff666566666676ffff667666ff545354444454ffff45546466ff6576666676ffff66766665ff6465655555ffff5665656766ff66566566ffff6666766566ff65666566ffff667576566564ff555566ffff556566666564ff555565ffff56657576666566ff6666ffff66666565556465ff5565ffff5665656666657566ff66ffff6676756565646555ff65ffff566565666564655555ffffff556556556564656555ffffff566575ffffffffffffffffffffffffffffffffffffffffffffffffffffffffffffffffffffffffffffffffffffffffffffffff67666565666666ffffff667566655455555555ffffff656566766566665676ffff56ff7676666565666566ffff66ff7566666566666666ffff6666ff66656465555566ffff5565ff
  0x1ff665766655766ffff666665ff666576666666ffff65666676ff6777766776ffff76777676ff6676666776ffff7677767777ff67666767ffff6676767566ff66655666ffff666666666656ff655776ffff657666756656ff655776ffff66766676666666ff6766ffff65667576766676ff6776ffff7676776666667766ff76ffff7576767566566665ff66ffff657665766656666557ffffff667666767766766667ffffff767776ffffffffffffffffffffffffffffffffffffffffffffffffffffffffffffffffffffffffffffffffffffffffffffffff76776777666777ffffff777665554555544655ffffff655666665666665776ffff76ff7776766667666767ffff76ff7676776677766777ffff7677ff76665666655766ffff6676ff
  1
  1
  0x1ff6666666667ffff75666665ff6564655555ffff5555657555ff55665556ffff6465655666ff65766666ffff756676766666ff666666ffff656676755465ff665556ffff54556565556655ff5556ffff64556566556555ff5556ffff6465657566666666ff67ffff7565666566666576ff66ffff756675766666666666ffffff656566755565556655ffffff64656565ffffffffffffffffffffffffffffffffffffffffffffffffffffffffffffffffffffffffffffffffffffffffffffffff566666775667ffffff766676555555555556ffffff646564667666666667ffff75ff7666445445554445ffff53ff5465666656666656ffff6566ff76666666666666ffff7575ff75666666666667ffff756676ff556655655556ffff646565ff
  0x1ff6556665556ffff64666555ff6564655555ffff6655655576ff66766666ffff6566667666ff65766666ffff656666666576ff666666ffff756576666455ff665455ffff54665555656555ff5556ffff64556556656555ff5556ffff6465655566666666ff67ffff6565666575666666ff66ffff767665666666667666ffffff656566656455556555ffffff54656555ffffffffffffffffffffffffffffffffffffffffffffffffffffffffffffffffffffffffffffffffffffffffffffffff756665665566ffffff666666555556655556ffffff546554656666766566ffff65ff6665555445554445ffff53ff5445656656666656ffff6566ff66666666666566ffff6565ff65666666666666ffff756676ff556555655556ffff646565ff
  0x1ff66677666ff66ff66666565ff66656666ff66ff6565757577ff677777ff77ff7676767676ff667666ff66ff757576767676ff6766ff66ff656576766566ff6666ff66ff65656565666666ff66ff66ff65656565766666ff66ff66ff6565757576666666ffff66ff6565666576666676ffff66ff76757576ffffffffffffffffffffffffffffffffffffffffffffffff7666666666ffffff656565667666667666ffffff75767675ffffffffffffffffffffffffffffffffffffffffffffffff7677667767ff66ffff7676766555565555ff55ffff5465647677667766ff67ff76ff76766555565555ff55ff54ff64657666666677ff77ff6676ff766666666666ff66ff7565ff757666666677ff77ff766676ff6666666666ff66ff657575ff
  0x1ff76667766ff76ff75777666ff65646556ff65ff5556556576ff767767ff77ff7676767766ff657666ff66ff656666767677ff7777ff77ff767667766576ff7666ff76ff65666676667675ff67ff77ff66666667556555ff55ff65ff6465656577777676ffff77ff7676677675667576ffff76ff66666676ffffffffffffffffffffffffffffffffffffffffffffffff6676657666ffffff656666666676657666ffffff65666666ffffffffffffffffffffffffffffffffffffffffffffffff7666657667ff66ffff6666766666666666ff66ffff6566656676667666ff77ff75ff76666665656556ff65ff65ff65667676656667ff76ff6666ff766676666666ff66ff7575ff766576666666ff76ff756676ff6676657666ff76ff656666ff
  0x1ff555666ff5665ff64666556ff556465ff5565ff6555656666ff6666ff6776ff7566666676ff6566ff6666ff656665766666ff67ff6676ff756576666455ff66ff5665ff54656566655555ffff5665ff64556566655555ffff5665ff64656566ffffffffffffffffffffffffffffffffffffffffffffffff76666676ffff76ff7566767665555566ffff65ff6465656665555566ff66ffff6465655666666576ff66ffff75667676ffffffffffffffffffffffffffffffffffffffffffffffff66566566ff6666ffff66666655556566ff5665ffff64656575666676ff6776ff65ff766754444555ff4554ff53ff545566665667ff5776ff6566ff6666666666ff6666ff7565ff6576666666ff6776ff756666ff65555565ff5665ff646565ff
  0x1ff757676ff7676ff75776666ff656465ff5565ff5556556576ff6676ff6666ff7576766666ff6576ff6666ff656666667676ff77ff7677ff667676766565ff66ff6665ff65666666667565ffff6666ff65666666667565ffff6666ff65666566ffffffffffffffffffffffffffffffffffffffffffffffff77767676ffff77ff6676777666656676ffff66ff6566656666756566ff66ffff6566666666766576ff66ffff65666676ffffffffffffffffffffffffffffffffffffffffffffffff76766576ff6666ffff67667666656666ff6666ffff65666576767676ff7676ff76ff767655645565ff5555ff64ff555566666576ff6676ff6566ff7676767676ff7676ff7676ff7676767677ff6777ff767776ff65656566ff6666ff656666ff
  0x1ff6667ff666766ff65656675ff6665ff666666ff6565767566ff66ff666766ff6565767666ff66ff666666ff757576767676ffff676766ff756676766566ffff656666ff65656665ffffffffffffffffffffffffffffffffffffffffffffffff666666ffff6766ff75656675667676ffff6766ff76757676666666ff66ff66ff66657675656666ff66ff66ff65657675666666ff6667ffff65756665666666ff6667ffff75767675ffffffffffffffffffffffffffffffffffffffffffffffff667776ff667767ffff767676655556ff555655ffff546564667776ff666767ff76ff7776656556ff555655ff64ff6565667666ff666777ff7566ff76556565ff665655ff6564ff65766766ff766777ff766677ff556555ff555666ff646565ff
  0x1ff6666ff666676ff75667666ff6564ff555565ff5655656666ff66ff666676ff7566766766ff65ff666666ff656676666676ffff666666ff756676765465ffff555665ff54566566ffffffffffffffffffffffffffffffffffffffffffffffff667666ffff6666ff75656666666665ffff6676ff65667576667666ff66ff66ff65657676556555ff55ff65ff64656566656555ff5556ffff64556556667665ff6666ffff65667675ffffffffffffffffffffffffffffffffffffffffffffffff666666ff566666ffff766677556556ff555665ffff646565767666ff666667ff75ff7666455445ff444554ff53ff5455667656ff665676ff6566ff76667666ff666666ff7565ff76556555ff555665ff646565ff656555ff555666ff645565ff
  0x1ff55ff65656656ff66555564ff65ff66555665ff6564656566ffff76666766ff6665666566ffff65666666ff76657565ffffffffffffffffffffffffffffffffffffffffffffffff5565ffff555666ff556465665555ffff555655ff655465645555ff65ff5655ff655455646666ff76ff6666ff766575655555ff6555ff55ff555465645555ff6555ff55ff655465645565ff665556ffff656465556565ff756566ffff66756574ffffffffffffffffffffffffffffffffffffffffffffffff6666ff76666766ffff6566654444ff54444544ffff4354536666ff77566656ff76ff66665555ff55555555ff54ff64655666ff66665766ff6665ff655555ff65555555ff6554ff646656ff66666667ff665566ff5565ff65555666ff656465ff
  0x1ff76ff76666676ff75766676ff66ff66655566ff6656666675ffff76766676ff7666767766ffff76666676ff75666677ffffffffffffffffffffffffffffffffffffffffffffffff6576ffff666676ff656666666576ffff666666ff756666767676ff77ff6776ff767677766576ff76ff6676ff756665767677ff7767ff77ff767677765465ff6565ff65ff645665666576ff666666ffff756666676676ff766666ffff75666676ffffffffffffffffffffffffffffffffffffffffffffffff6566ff76566666ffff6766766566ff66666666ffff6566657676ff77777777ff76ff76765665ff65565565ff64ff55666576ff76665676ff6566ff776576ff77667676ff6566ff766576ff76666676ff756676ff6566ff66666666ff756666ff
  0x1ffff6676666766ff75667666ffff6465555555ff65556576ffffffffffffffffffffffffffffffffffffffffffffffff76ffff67666666ff7566756664ffff66555655ff5465656665ff55ff555655ff6455656665ff55ff555655ff6465657665ff5566ff5655ff6465655675ff6576ff6666ff7566757666ff667666ff66ff6565756664ff556555ff55ff6465656665ff55665556ffff6465655565ff65666666ffff65667576ffffffffffffffffffffffffffffffffffffffffffffffff65ff6666566756ffff76667655ff5566555655ffff64656576ff6676666766ff75ff766654ff4555444544ff53ff546565ff5666665766ff6566ff7666ff6666566666ff7575ff6666ff6666666766ff756676ff65ff5555555655ff646565ff
  0x1ffff7676667765ff76666765ffff6576666665ff66667665ffffffffffffffffffffffffffffffffffffffffffffffff76ffff77767776ff7666777565ffff76666665ff6566666566ff66ff666776ff6556766666ff66ff666665ff7566766576ff7677ff6766ff7666677566ff7576ff6676ff6566667676ff767666ff66ff6666777566ff667666ff65ff6566766566ff66766666ffff7566665666ff65766666ffff75667665ffffffffffffffffffffffffffffffffffffffffffffffff66ff6677676776ffff77767665ff6666656655ffff55666476ff7777777766ff76ff776655ff5665555664ff64ff655566ff6676666776ff7576ff7676ff6676666666ff7566ff7566ff6676776766ff766677ff66ff6675666666ff756676ff
  0x1ffffffffffffffffffffffffffffffffffffffffffffffffffff5665555666ff64566565ffff5565555565ff64656565ff65ff56555655ff64566565ff64ff55444554ff53565455ff6445ff444556ff53455455ff6445ff444564ff53665465ff655656ff5655ff64665565ff655565ff5565ff64656465ff65566655ff66ff64566565ff64455544ff54ff53555455ff5445554445ffff53555445ff6555655555ffff64656575ffffffffffffffffffffffffffffffffffffffffffffffffff655666465655ffff665566ff655565565566ffff656565ff655666555666ff64ff6556ff533444333443ff42ff4354ff654656554665ff5456ff65ff655555555555ff6466ff65ff655655555666ff645665ffff544554444555ff536554ff
  0x1ffffffffffffffffffffffffffffffffffffffffffffffffffff7677767777ff76767776ffff7677767777ff76767676ff77ff77667677ff76767676ff65ff66655666ff55666666ff6665ff666676ff65667667ff6666ff666676ff65766666ff666677ff6766ff75766666ff667576ff6676ff76667666ff77767677ff77ff66767676ff66656565ff66ff65756666ff6666766667ffff65767666ff7675767666ffff66666676ffffffffffffffffffffffffffffffffffffffffffffffffff667676667777ffff766777ff666766656666ffff656665ff767676666777ff66ff7776ff555566555665ff64ff6556ff776676766777ff6666ff76ff767677666666ff7675ff66ff777677767777ff767677ffff666676666776ff656676ff)
 (mkT
  0x1ff756676767666ff767566ffff646364545555ff454555ff75ff7576766676ff666676ff65ff6475656665ff555566ff6575ff76666666ff657666ff5453ff54545554ff555444ff667675ff766766ff666576ff536454ff545464ff445455ff65756566ff6666ff666566ff65656475ff6665ff555566ff6675656666ff66ff656566ff6464646565ff65ff555555ff666575666666ffff656666ff646464656565ffff555555ffffffffffffffffffffffffffffffffffffffffffffffffff65647565656665ffff6555ff55645565655555ffff6455ff65657465756666ff56ff66ff55645555555565ff64ff55ff64756565656565ff5565ffff65656576666666ff6565ffffffffffffffffffffffffffffffffffffffffffffffffffff
  0x1ff767677777777ff767677ffff556455656556ff665566ff75ff7577767676ff666676ff66ff7566667666ff766677ff7676ff66777677ff767677ff7566ff66767665ff666676ff757676ff767676ff666676ff757665ff766675ff666676ff76767566ff6666ff766667ff66667566ff7666ff666676ff6676756777ff66ff766677ff7566756666ff66ff666676ff667675666666ffff656676ff766775666676ffff766676ffffffffffffffffffffffffffffffffffffffffffffffffff66767567777667ffff6677ff66666556666666ffff6566ff76667566767666ff76ff76ff76666666666666ff75ff76ff76777667777776ff7677ffff76667566766665ff6666ffffffffffffffffffffffffffffffffffffffffffffffffffff
  0x1ff767676666676ff7675ff66ff546354545455ff5545ff4566ff7576766666ff7665ff7664ff6465656565ff5555ff567676ff76666677ff7576ff676465ff64656565ff5555ff55767775ff766677ff7666ff66647564ff655565ff5555ff5665666576ff6666ff6665ff6665656465ff6565ff6555ff566676656676ff66ff6665ff666565646565ff65ff6555ff56767675766666ffff7566ff66656664656565ffff6555ff56ffffffffffffffffffffffffffffffffffffffffffffffff75767575666676ffff66ff6656656565655555ffff64ff5565657465656566ff66ffff5666655565555566ff64ffff56ffffffffffffffffffffffffffffffffffffffffffffffff65756475656566ff6555ffff65666566666666ff6566ffff
  0x1ff767777677777ff7776ff77ff667556566566ff6656ff5675ff7677767676ff6666ff7676ff7667667666ff7766ff677677ff77677776ff7676ff677666ff67666675ff6766ff66657665ff766666ff6665ff66656666ff566665ff6665ff6676777677ff7776ff7776ff7776677566ff7666ff6666ff666676757667ff67ff6666ff767576766666ff76ff6666ff66777776776676ffff7667ff67666675666676ffff7666ff66ffffffffffffffffffffffffffffffffffffffffffffffff76777677677677ffff66ff7766677667677666ffff76ff6766667566767666ff77ffff6666666666566666ff66ffff67ffffffffffffffffffffffffffffffffffffffffffffffff76767577667667ff6666ffff76667666666675ff6666ffff
  0x1ff757676666665ff66ff7666ff546354545454ff56ff554574ff7576657675ff56ff666563ff6464546564ff46ff55557475ff66656665ff56ff65666354ff54545454ff45ff5545747575ff656665ff56ff6566525354ff435453ff35ff445474656566ff6565ff56ff666564656465ff6564ff56ff56566465656665ff65ff65ff56656364646554ff64ff46ff5555656565666566ffff65ff6666646564656465ffff56ff5656ffffffffffffffffffffffffffffffffffffffffffffffff74656465656565ffffff565664656666655555ffffff5665ffffffffffffffffffffffffffffffffffffffffffffffff63646565546564ff46ffff6563546565546564ff46ffff6474657465656565ff56ff66ff63646555545564ff45ff54ff
  0x1ff777677777677ff76ff7767ff656465555556ff55ff655677ff7576666676ff66ff766766ff6576666666ff66ff76676776ff76666667ff65ff66676666ff66767667ff76ff7667677776ff767777ff76ff7667566665ff656666ff65ff666767777677ff7767ff66ff666766666576ff6666ff65ff76676676766666ff67ff65ff66676676656666ff66ff75ff7667777775766666ffff66ff7667666665766666ffff65ff6667ffffffffffffffffffffffffffffffffffffffffffffffff77777677676767ffffff767756666666656556ffffff6656ffffffffffffffffffffffffffffffffffffffffffffffff66767666666766ff75ffff6767777677766667ff66ffff6777767576666667ff66ff76ff67777577666767ff66ff76ff
  0x1ff667576666666ffff666666ff435243434344ffff34443466ff7475656566ffff56656554ff6354545454ffff4555456666ff65566566ffff6566566455ff54656455ffff565545667664ff656566ffff567555646463ff545454ffff45554566656465ff6556ffff55565554546354ff5454ffff4555455565646566ff56ffff5566656554635464ff55ffff455545656564655555ffffff566556545563545454ffffff455545ffffffffffffffffffffffffffffffffffffffffffffffffffffffffffffffffffffffffffffffffffffffffffffffff54546354645455ffffff554566656465555565ffffff655666756464655565ffff56ff6665556455656555ffff55ff5565646364545455ffff4665ff55556455555565ffff5665ff
  0x1ff766766766677ffff756767ff667566666666ffff66666676ff7777777777ffff76777666ff6677766676ffff7677677677ff77776677ffff8677677576ff66666666ffff667667767776ff777777ffff767777656656ff655665ffff65666666766666ff6766ffff75677666767676ff6666ffff7577667677766776ff77ffff7677776676666676ff66ffff757766767776677666ffffff667767667666767666ffffff756767ffffffffffffffffffffffffffffffffffffffffffffffffffffffffffffffffffffffffffffffffffffffffffffffff76777677777767ffffff777666666656655566ffffff665766766666766766ffff75ff6676776677766776ffff76ff7776777676766667ffff7677ff76766667666666ffff7667ff
  1
  1
  0x1ff7676777767ffff76767676ff6665656665ffff6556665566ff76666666ffff7566766666ff65766666ffff656676666676ff766666ffff757676666566ff666666ffff65667566777776ff7676ffff76767677556555ff5556ffff5465656677767677ff67ffff7676767666666566ff66ffff656676666676766666ffffff756676766676666666ffffff65667666ffffffffffffffffffffffffffffffffffffffffffffffffffffffffffffffffffffffffffffffffffffffffffffffff667676776766ffffff677676666566666666ffffff656665767675667676ffff76ff7666556555555555ffff64ff6556667666666667ffff6576ff76667666766666ffff6566ff66667665766666ffff656676ff666666666566ffff656666ff
  0x1ff7666666666ffff75757666ff5463545454ffff5545554575ff65667666ffff6666766664ff64656565ffff555556566566ff766666ffff657576676354ff546464ffff55555545656675ff7676ffff66657666535454ff5455ffff4454554565766566ff66ffff6665666664656465ff65ffff655566566576756666ffffff656566666465646565ffffff55556656ffffffffffffffffffffffffffffffffffffffffffffffffffffffffffffffffffffffffffffffffffffffffffffffff757575756666ffffff666666556565656555ffffff646655646564656565ffff56ff6656666555555555ffff64ff6556646565656566ffff5565ff56646665566566ffff5565ff65657564756565ffff655566ff645565666566ffff556565ff
  0x1ff76667776ff66ff77756676ff65646565ff56ff5655655576ff767777ff67ff7676777666ff657666ff66ff666576667677ff7777ff77ff767676676576ff7676ff66ff66657666667675ff77ff67ff66666766556555ff65ff55ff6564656566766576ffff66ff6665666666766576ffff66ff66656666ffffffffffffffffffffffffffffffffffffffffffffffff7777767677ffffff767676677566757676ffffff66667666ffffffffffffffffffffffffffffffffffffffffffffffff6676667677ff66ffff7566766665656565ff56ffff6566657666657666ff67ff66ff76666666666666ff66ff65ff65666576666676ff66ff6675ff766676657676ff66ff6665ff667676656676ff67ff666676ff6676666666ff66ff757576ff
  0x1ff76667676ff76ff65656666ff54635455ff55ff4545454575ff756666ff66ff6666666664ff646565ff65ff555556566576ff7666ff66ff656566666465ff6565ff65ff55555656756675ff66ff66ff66666666536454ff54ff54ff4444555565667566ffff66ff6665676665666465ffff65ff55555656ffffffffffffffffffffffffffffffffffffffffffffffff6566756666ffffff656666676566646565ffffff55555656ffffffffffffffffffffffffffffffffffffffffffffffff6565746566ff65ffff5656565665555565ff55ffff6456556565746565ff66ff56ff56565665555555ff65ff64ff55566465646565ff65ff5555ff566465656665ff65ff5555ff656465646565ff65ff555556ff6465656665ff65ff555565ff
  0x1ff667666ff6676ff75667667ff556465ff5566ff6556655676ff7677ff6777ff7676767776ff6566ff6666ff656676667666ff76ff6676ff757676676566ff66ff6676ff65666566767776ffff7776ff76767667655555ffff5665ff64656566ffffffffffffffffffffffffffffffffffffffffffffffff76667666ffff76ff7566767775666566ffff76ff6566766676667566ff66ffff7566666766666566ff66ffff65667666ffffffffffffffffffffffffffffffffffffffffffffffff76667576ff6676ffff66766766667666ff6666ffff75766666667576ff6666ff76ff766765555555ff5565ff64ff655676666666ff6776ff7576ff7766666566ff6666ff6565ff6676666576ff6676ff756676ff66656566ff6675ff656666ff
  0x1ff766676ff7677ff75756666ff546354ff5455ff4545454576ff7566ff6666ff6666666665ff6465ff6565ff555556566676ff76ff6667ff657566666464ff65ff6565ff56555555766675ffff6666ff66666666646464ffff6565ff55555555ffffffffffffffffffffffffffffffffffffffffffffffff66667566ffff66ff6665666675657565ffff66ff6666665666667566ff66ffff6566666765656465ff66ffff55555656ffffffffffffffffffffffffffffffffffffffffffffffff75657465ff6566ffff56565655655565ff6556ffff64565565657465ff6566ff56ff565656655565ff5566ff64ff555665656465ff6565ff5555ff5665656566ff7666ff6665ff6565656465ff6566ff555556ff65656566ff6666ff656665ff
  0x1ff6676ff766766ff66756676ff5564ff655555ff5555655565ff75ff666666ff6665667665ff65ff666666ff656566666676ffff766766ff667576665455ffff655655ff56646564ffffffffffffffffffffffffffffffffffffffffffffffff556565ffff5655ff55645665666675ffff6666ff66657666556565ff66ff55ff55646565556565ff65ff65ff65646665666675ff6666ffff65656666656675ff6666ffff66657665ffffffffffffffffffffffffffffffffffffffffffffffff666676ff666666ffff756665455455ff544544ffff535554666675ff666656ff66ff7666656556ff555655ff64ff6565556565ff655655ff6564ff65546565ff555555ff5564ff65667665ff665666ff766576ff656675ff666666ff656576ff
  0x1ff7676ff777677ff76767766ff6565ff657465ff5656564675ff76ff767676ff6666766676ff76ff767575ff666667577576ffff767676ff666676677576ffff767575ff67676757ffffffffffffffffffffffffffffffffffffffffffffffff767776ffff7676ff67767767757675ffff6576ff66666757757676ff76ff76ff66666766757675ff66ff66ff66666757767776ff6676ffff76677767757575ff7675ffff66666656ffffffffffffffffffffffffffffffffffffffffffffffff757675ff767576ffff666667667666ff767566ffff666756757675ff767566ff66ff6757667666ff667576ff66ff6657647565ff657565ff5555ff66767776ff767676ff7776ff67647564ff656565ff555566ff767666ff677676ff767677ff
  0x1ff65ff65656566ff65646655ff65ff65666556ff6665665565ffff76667666ff6675666555ffff65656555ff65646655ffffffffffffffffffffffffffffffffffffffffffffffff6676ffff767666ff767576664454ffff545554ff556355555565ff65ff6656ff566456555665ff65ff6555ff656466555665ff6566ff56ff566456555565ff6565ff55ff656466556666ff666666ffff656566665565ff656565ffff65746655ffffffffffffffffffffffffffffffffffffffffffffffff6676ff76666666ffff7566664554ff54545445ffff5355446666ff76666656ff76ff76656665ff65555565ff64ff65565565ff65656665ff6674ff665565ff65656555ff6664ff555665ff65656556ff656466ff5565ff66656655ff656465ff
  0x1ff77ff77777777ff76767777ff55ff55645465ff5655564676ffff67767677ff7677776765ffff66666575ff66566757ffffffffffffffffffffffffffffffffffffffffffffffff7667ffff767677ff777677676475ffff656565ff555566567677ff77ff7677ff777667676565ff66ff6566ff666666566677ff7777ff77ff767677676465ff6565ff65ff555566567677ff777666ffff766777677566ff666665ffff66666756ffffffffffffffffffffffffffffffffffffffffffffffff7565ff66656676ffff6666567676ff77767766ffff7677667566ff66766566ff66ff67576676ff76666666ff75ff76677576ff66766676ff6666ff577566ff67767676ff6666ff667576ff76756576ff666667ff7566ff67766676ff666676ff
  0x1ffff7677777777ff76767676ffff6455555556ff55556555ffffffffffffffffffffffffffffffffffffffffffffffff75ffff76666666ff6576666765ffff55555665ff6565646575ff75ff767676ff6666766664ff55ff555555ff5465656666ff7566ff6666ff6565666676ff6566ff6666ff6566766666ff766666ff66ff6565767665ff656666ff66ff6565656676ff75666666ffff7566666675ff65666666ffff65666566ffffffffffffffffffffffffffffffffffffffffffffffff76ff7666666766ffff76757656ff6665655655ffff64656566ff7566766667ff66ff766665ff5555555555ff64ff655675ff6666666666ff6576ff7765ff6566666666ff6565ff6666ff6576666666ff756576ff64ff6566555565ff546555ff
  0x1ffff6676767676ff76757767ffff6566656565ff56465656ffffffffffffffffffffffffffffffffffffffffffffffff66ffff76666676ff7576766765ffff65657574ff5656565676ff86ff777776ff7776777765ff65ff656564ff5555665667ff7677ff7776ff7666777765ff6465ff6565ff5555565666ff767777ff66ff7666777765ff657676ff75ff6656666777ff76777677ffff7666776765ff64656565ffff65556656ffffffffffffffffffffffffffffffffffffffffffffffff75ff7576766676ffff56676756ff6666666665ffff65676665ff7465656565ff66ff665666ff5666666675ff75ff666775ff7576667675ff6666ff6766ff7667667775ff6666ff7665ff6576767666ff665667ff66ff7677667675ff666666ff
  0x1ffffffffffffffffffffffffffffffffffffffffffffffffffff6666666676ff75766676ffff5565555565ff64656555ff65ff65555566ff64656556ff65ff56555665ff64666566ff7666ff666676ff65666566ff6445ff444564ff53655455ff766666ff5666ff65656566ff655565ff5565ff64656556ff65665655ff66ff64556566ff65565555ff65ff64656556ff6565555555ffff64556556ff6555655555ffff64656556ffffffffffffffffffffffffffffffffffffffffffffffffff766666575666ffff766566ff656665556555ffff646555ff766566666666ff75ff7666ff544544444454ff53ff5445ff755655555665ff6466ff66ff655665555665ff6465ff65ff655665555566ff646565ffff645555555565ff645555ff
  0x1ffffffffffffffffffffffffffffffffffffffffffffffffffff7676767777ff66767676ffff7576757676ff56566767ff77ff76667677ff66767777ff65ff65746565ff56665656ff7776ff767777ff67767666ff6565ff646565ff45655656ff767576ff7667ff66666766ff657465ff6565ff66566656ff77767676ff77ff66766777ff75747675ff66ff56566666ff7776777676ffff76767767ff6674656565ffff56565656ffffffffffffffffffffffffffffffffffffffffffffffffff767576767676ffff676767ff666676666666ffff756666ff657465656566ff56ff5656ff666666666666ff75ff6667ff767575756676ff5666ff67ff667667757676ff5666ff76ff767575767666ff666666ffff667567656666ff566666ff)
 (mkT
  0x1ff5566666566ff55656456ffff5564656565ff55666566ff66ff76777667ff66767566ff65ff65666566ff55656466ff7656ff666667ff66657566ff6455ff665455ff55556555ff756666ff6666ff66657576ff655565ff6565ff55656466ff65556566ff66ff55656456ff75657576ff76ff66767576ff6555656665ffff55556466ff7455656565ffff55656465ffffffffffffffffffffffffffffffffffffffffffffffffff656666766666ffff656566ff656565656566ffff657466ff656676766667ff66ff7567ff544455556455ff44ff5355ff665665766666ff6675ff66ff655565665556ff5564ff65ff756676766667ff666675ffff655565666565ff556564ffffffffffffffffffffffffffffffffffffffffffffffffffff
  0x1ff6666667667ff57766567ffff6665667666ff56667676ff66ff66776667ff66757576ff66ff66666666ff66757576ff7666ff677677ff57666577ff6566ff666666ff56756666ff667666ff6667ff67757676ff766667ff7667ff56766677ff76666666ff67ff57766566ff76767677ff76ff66767676ff7666666676ffff57666576ff7666666676ffff57766577ffffffffffffffffffffffffffffffffffffffffffffffffff766777677767ffff767677ff767666677667ffff767576ff767776776777ff67ff7677ff655556556556ff46ff5466ff666666766667ff6775ff66ff666666666667ff5765ff76ff777767777777ff677676ffff666666666666ff577665ffffffffffffffffffffffffffffffffffffffffffffffffffff
  0x1ff6666666566ff666675ff66ff5564656565ff556665ff6566ff76767677ff677675ff6666ff65666666ff667565ff667766ff667677ff767676ff777566ff666566ff666675ff66777776ff7666ff677676ff77766665ff7666ff666675ff7666656566ff66ff666665ff6666667576ff66ff667675ff767666656676ffff666675ff666566656676ffff667675ff66ffffffffffffffffffffffffffffffffffffffffffffffff766676767667ffff6675ff66766675767666ffff7675ff66767676777677ff77ff76ff77655565556555ff55ff64ff55776675667676ff6666ffff66666666656666ff6675ffff66ffffffffffffffffffffffffffffffffffffffffffffffff766777767777ff677676ffff766665666666ff667565ffff
  0x1ff6666666666ff676675ff76ff6665766666ff666665ff7667ff77776777ff677676ff7677ff76766677ff667676ff766666ff677667ff666675ff766566ff776666ff676665ff76766666ff6666ff676675ff76666666ff6666ff666575ff7666666666ff67ff666675ff7676666677ff76ff667675ff766555556665ffff565564ff657666767766ffff667665ff76ffffffffffffffffffffffffffffffffffffffffffffffff666676666667ffff6675ff76666666776566ffff6665ff76767776776777ff77ff76ff77555566666566ff56ff64ff66666676776677ff6776ffff67666666665656ff6765ffff76ffffffffffffffffffffffffffffffffffffffffffffffff777767777677ff677776ffff666666765666ff667575ffff
  0x1ff5566666566ff5666ff6665ff6675766666ff6676ff766565ff76776566ff6666ff666675ff66666465ff6655ff56657566ff676667ff5766ff66665344ff555354ff4544ff4554656666ff6666ff6765ff6666645566ff6455ff5555ff566564556666ff66ff5655ff566575666576ff75ff6666ff66766455566665ffff5665ff56656455566564ffff5655ff5565ffffffffffffffffffffffffffffffffffffffffffffffff656666666667ffff65ff6676645565566465ffff55ff5665645566666566ff56ffff5665554556555555ff45ffff5554ffffffffffffffffffffffffffffffffffffffffffffffff756566766566ff6756ffff76645565666465ff5565ffff65666667667667ff5766ff77ff646556655556ff6554ff65ff
  0x1ff5676676676ff6666ff5766ff6675767576ff6666ff666666ff77777767ff6776ff767776ff75666676ff6676ff76666556ff676666ff6665ff66666556ff676667ff6666ff6766766777ff7777ff7766ff7777655676ff6666ff6666ff666765567667ff76ff6665ff666676667677ff76ff7676ff76776556766766ffff6656ff66666556766666ffff6675ff6766ffffffffffffffffffffffffffffffffffffffffffffffff666666776667ffff65ff7676756676677666ffff66ff6767766776776677ff77ffff6777544566565555ff55ffff5655ffffffffffffffffffffffffffffffffffffffffffffffff766776777767ff7667ffff77655676666665ff6666ffff66766777777776ff6776ff77ff666766666666ff6675ff66ff
  0x1ff6665666666ff66ff656666ff4453545454ff44ff54555466ff65767666ff66ff65666665ff64655565ff55ff5565656656ff666676ff65ff6667667566ff656565ff65ff766666666665ff6665ff66ff667666665564ff6565ff55ff65666566556465ff65ff55ff65566555556465ff65ff55ff6565655655646665ffff56ff6566656655646565ffff55ff656665ffffffffffffffffffffffffffffffffffffffffffffffff666675756666ffffff657666666564656565ffffff656666ffffffffffffffffffffffffffffffffffffffffffffffff665564656565ff55ffff5665665665666666ff56ffff6665676675767666ff66ff66ff66655564656565ff55ff65ff65776766667666ff57ff7677ff666564655555ff65ff5565ff
  0x1ff5556666566ff56ff645665ff6675766666ff66ff75666666ff67777667ff67ff75667676ff66767666ff66ff7567767767ff776777ff77ff7667777565ff666566ff66ff656666766666ff6667ff67ff756776766666ff6666ff67ff75667665555666ff66ff56ff64566576777677ff77ff77ff7677776666667666ffff66ff6566766555566665ffff56ff646665ffffffffffffffffffffffffffffffffffffffffffffffff667766777667ffffff757676766666666666ffffff756776ffffffffffffffffffffffffffffffffffffffffffffffff666666777667ff67ffff7776665665665556ff66ffff6666767766777767ff77ff76ff77666666776666ff67ff75ff76766666777677ff67ff7577ff666656666557ff66ff6676ff
  0x1ff5566566566ffff65645665ff5564556565ffff6565666566ff66676667ffff7565666666ff65666666ffff756566656555ff566566ffff556466656455ff566566ffff65646665666666ff6666ffff65756666656565ff6566ffff6564666665556556ff66ffff6564566566667566ff76ffff767566766555655665ffffff556466656555655665ffffff65646665ffffffffffffffffffffffffffffffffffffffffffffffffffffffffffffffffffffffffffffffffffffffffffffffff656675676677ffffff756776544455455455ffffff535554655665666666ffff76ff6766655565565556ffff64ff6565766666676667ffff6675ff76655565566565ffff6564ff65766767577667ffff766677ff556555665556ffff646565ff
  0x1ff5556666566ffff65645665ff5564656566ffff5665666566ff66777666ffff6675666666ff65666566ffff656566656666ff766667ffff756566655455ff666465ffff55555665756666ff6566ffff65656666655555ff6566ffff6564666565555566ff66ffff6564566565666566ff76ffff666566666555556665ffffff556466656455556665ffffff55546565ffffffffffffffffffffffffffffffffffffffffffffffffffffffffffffffffffffffffffffffffffffffffffffffff756666666567ffffff656676544446555456ffffff535554665665666667ffff65ff6666565565665556ffff64ff6565756666666666ffff6665ff76655555666565ffff6564ff65655555766566ffff656466ff656555665556ffff645565ff
  1
  1
  0x1ff55566665ffff5666645665ff55646565ffff555565666566ff666676ffff676675666676ff656666ffff66666576656666ff6776ffff66657566766455ff6665ffff5665546665655555ff65ffff5655646665655555ff65ffff566564666565555566ffffff666564566566666576ffffff6666757676ffffffffffffffffffffffffffffffffffffffffffffffffffffffffffffffffffffffffffffffffffffffffffffffff7666667676ffffff667576766555556665ffffff656466657566667676ffff67ff6567765444455554ffff45ff5355546656656666ffff6666ff66665555656665ffff5664ff65657666666676ffff676675ff666555556565ffff566564ff656666566776ffff57666566ff6666666666ffff66657565ff
  0x1ff66766676ffff6666756776ff55646566ffff555665566576ff767777ffff677676777676ff656666ffff66666566767666ff7676ffff66767567766566ff6676ffff6666656665767776ff76ffff7776766776655555ff65ffff566564666576667566ffffff666675676666666566ffffff6666656676ffffffffffffffffffffffffffffffffffffffffffffffffffffffffffffffffffffffffffffffffffffffffffffffff7666766676ffffff667577767566656676ffffff666566766666757666ffff66ff7667766555555565ffff55ff6456657666757676ffff6666ff67766666766666ffff6675ff66767666657676ffff666675ff766665656675ffff666665ff667666666676ffff67767577ff6666656666ffff66656566ff
  0x1ff666666ff66ff6665656666ff667576ff66ff666666666666ff7677ff67ff677575666676ff6676ff66ff66757566667667ff77ff77ff77767676766566ff76ff66ff6665656666766666ffff66ff6675756666666666ffff66ff6675756666ffffffffffffffffffffffffffffffffffffffffffffffff66666676ffffff666565767666666676ffffff6675657676ffffffffffffffffffffffffffffffffffffffffffffffff66666676ff66ffff6565767666666676ff66ffff6575767666666677ff67ff67ff75677655556565ff56ff55ff64656566666677ff67ff6775ff766755556565ff55ff5664ff656576676777ff67ff677676ff7765555566ff65ff566564ff6576676777ff67ff67767677ff65555566ff56ff65646565ff
  0x1ff756676ff77ff6666666666ff556465ff65ff555665566577ff7677ff77ff777676666776ff7576ff66ff66666566667665ff76ff77ff66766676666565ff66ff75ff6666666656777676ffff76ff7766767777766565ffff76ff6666656666ffffffffffffffffffffffffffffffffffffffffffffffff76656566ffffff666665666676756676ffffff6676667666ffffffffffffffffffffffffffffffffffffffffffffffff77767676ff77ffff6676767776756576ff76ffff6675666676667576ff76ff66ff76677665645565ff66ff55ff55655576667576ff76ff6666ff676666657666ff66ff6665ff656666667576ff66ff666676ff7676656566ff76ff666665ff6677666677ff77ff66766677ff66756576ff66ff66656666ff
  0x1ff5566ff6556ff5665645665ff5564ff6555ff556565666566ff76ff7667ff666675666576ff65ff6566ff66666566657666ffff6667ff66657566666455ffff6455ff5555645665ffffffffffffffffffffffffffffffffffffffffffffffff655565ffff56ff5665645665666675ffff66ff6676757676655565ff65ffff5655646565655565ff65ffff5665646665ffffffffffffffffffffffffffffffffffffffffffffffff655565ff6556ffff55646665655565ff6556ffff65646665756676ff6667ff66ff756776544455ff5445ff45ff535554665665ff6666ff6676ff6766655565ff5556ff5664ff6565766676ff7667ff676675ff76555565ff5555ff556564ff65666767ff6657ff57766676ff666666ff6666ff56656566ff
  0x1ff6676ff7677ff6666756666ff6665ff6665ff656676666677ff77ff7777ff777676777776ff66ff6676ff66767566657666ffff7676ff66667567666566ffff6666ff6665656666ffffffffffffffffffffffffffffffffffffffffffffffff766676ffff66ff6666756666767676ffff76ff6676767676766666ff66ffff6666756676666666ff66ffff6675756676ffffffffffffffffffffffffffffffffffffffffffffffff767666ff6667ffff75667666656555ff6566ffff65646666766776ff6676ff77ff767777655566ff6565ff55ff645565665666ff6666ff6675ff7666666666ff6666ff6675ff6666767767ff7766ff677676ff77766676ff7676ff666675ff76766666ff7677ff56766577ff556555ff5556ff65646565ff
  0x1ff44ff555455ff4555534554ff55ff656565ff556564656555ffff666556ff566664555565ffff556565ff5565646554ffffffffffffffffffffffffffffffffffffffffffffffff6666ffff6666ff56666566655444ffff5455ff45555355545444ff55ff55ff45555345546555ff65ff65ff55656465655444ff5554ffff45455355545444ff5554ffff4566535554ffffffffffffffffffffffffffffffffffffffffffffffff5556ff666556ffff566465655464ff656455ffff566355656555ff666566ff56ff6456654333ff444344ff34ff4244435546ff565566ff5666ff56566656ff656565ff5565ff66656555ff666556ff565664ff655444ff555454ff455553ff546556ff666566ff47665566ff5555ff555555ff55656455ff
  0x1ff66ff777667ff6776756776ff56ff666565ff656765666676ffff777677ff777676777776ffff776576ff6666666776ffffffffffffffffffffffffffffffffffffffffffffffff7666ffff7666ff67667577767566ffff7666ff66666576767566ff77ff66ff66766566766666ff77ff76ff76767676776666ff7776ffff67666576766566ff6675ffff6665656666ffffffffffffffffffffffffffffffffffffffffffffffff7677ff777667ffff767676777666ff777666ffff767576767566ff776677ff66ff6667766555ff666556ff56ff6466657667ff777776ff7676ff67766666ff666566ff6665ff65667676ff777667ff766676ff776666ff766666ff667675ff767666ff777666ff67767576ff6676ff666666ff66756666ff
  0x1ffff66666667ff6675756665ffff75666666ff6666666565ffffffffffffffffffffffffffffffffffffffffffffffff76ffff666666ff666666657565ffff666566ff666565656576ff66ff6667ff667576766666ff66ff6666ff667575657566ff6666ff66ff667565656576ff7676ff77ff777676767666ff666666ffff666565667575ff666666ffff6665656665ffffffffffffffffffffffffffffffffffffffffffffffff66ff66666666ffff6565757666ff66666666ffff7575757676ff66676677ff67ff76767655ff55556556ff55ff64556466ff66676667ff7775ff666665ff55555555ff5664ff646576ff67777767ff677676ff7666ff66666666ff666575ff7576ff77777777ff67767676ff65ff55665556ff55646565ff
  0x1ffff66666566ff5665645655ffff64656565ff5566656655ffffffffffffffffffffffffffffffffffffffffffffffff65ffff666566ff666574665664ffff666566ff566565665576ff66ff7676ff676675776665ff65ff6566ff566564665565ff6566ff66ff566564565566ff6566ff66ff666665666665ff656665ffff565564665565ff656665ffff5665646655ffffffffffffffffffffffffffffffffffffffffffffffff66ff76766667ffff6665766665ff65666566ffff6574665675ff75766676ff66ff75676654ff56555455ff45ff53554465ff65666666ff5676ff666566ff65665556ff5664ff655576ff76777667ff676675ff6665ff65666565ff566564ff5576ff66667667ff57766577ff66ff66766666ff65756566ff
  0x1ffffffffffffffffffffffffffffffffffffffffffffffffffff66766667ff6775756666ffff56655556ff6564756565ff55ff665556ff5664655565ff55ff665556ff5564656565ff6556ff5556ff6664656556ff5555ff5556ff5564656565ff556566ff56ff5664655565ff666676ff66ff6675657566ff55656655ffff5664556565ff55556655ffff5564656565ffffffffffffffffffffffffffffffffffffffffffffffffff6556665556ffff64556566ff6565665556ffff64656576ff5666675667ff66ff756666ff5565665556ff56ff646565ff6556665556ff6764ff6556ff4454554445ff4553ff5454ff6656676657ff666566ff66ff5555655555ff556464ff65ff6666666666ff57656666ffff6445554445ff54536554ff
  0x1ffffffffffffffffffffffffffffffffffffffffffffffffffff76777677ff6776767776ffff66667576ff6666756766ff66ff767576ff6666756666ff55ff566465ff5655665555ff7776ff7677ff7766767776ff6666ff7566ff6666656666ff666566ff66ff6666755766ff666566ff76ff6666756666ff66667666ffff6656756666ff66656675ffff6666766666ffffffffffffffffffffffffffffffffffffffffffffffffff7676777677ffff66767776ff6666667566ffff66756666ff6776777677ff77ff766677ff5556656465ff55ff645555ff6675667576ff6666ff6666ff6666666666ff6675ff6666ff6666767676ff666675ff76ff6666667575ff666665ff66ff6776777677ff67767677ffff6666776666ff76656676ff)
 (mkT
  0x1ff7566766666ff76757566ffff5463545454ff54554555ff75ff76776667ff66666567ff64ff64656565ff65555556ff6565ff766666ff66656566ff5463ff556455ff64555545ff757676ff7676ff66666676ff536454ff5455ff54445455ff65657566ff66ff66656566ff65746566ff66ff65656556ff6575757666ffff66667566ff6464646565ffff65555556ffffffffffffffffffffffffffffffffffffffffffffffffff656665766666ffff656666ff646465656565ffff556556ff656474656565ff65ff5656ff556465655565ff55ff6455ff756574656565ff6566ff66ff645455655555ff6554ff55ff647565766566ff655565ffff646565666566ff655565ffffffffffffffffffffffffffffffffffffffffffffffffffff
  0x1ff7676777777ff77767677ffff6564555555ff55555665ff66ff75766666ff66656666ff66ff75767666ff66766676ff7777ff766776ff67667777ff6555ff566566ff66666666ff767775ff7676ff76766676ff666665ff6666ff67666676ff77767677ff67ff67767676ff66667566ff66ff66666676ff7777767676ffff66767677ff7666756676ffff66766676ffffffffffffffffffffffffffffffffffffffffffffffffff767775766666ffff666676ff756576666666ffff766665ff766676677676ff67ff7776ff666666666666ff56ff6566ff766675666666ff6666ff76ff666665666666ff6665ff76ff777776777767ff777677ffff766676677676ff667666ffffffffffffffffffffffffffffffffffffffffffffffffffff
  0x1ff7676766666ff767675ff66ff5463545454ff545545ff4576ff75766676ff767666ff7664ff64656565ff655555ff567676ff666666ff767566ff666464ff646555ff655656ff55767775ff7666ff767666ff76657564ff6565ff666555ff5666656566ff66ff666565ff6665656465ff65ff656555ff566676657676ffff666665ff666565646565ffff656555ff56ffffffffffffffffffffffffffffffffffffffffffffffff767675666666ffff7566ff66757565656565ffff6566ff66757575756666ff76ff66ff66556565656565ff55ff64ff55756574656565ff6566ffff56656555555555ff6564ffff56ffffffffffffffffffffffffffffffffffffffffffffffff656564756565ff656555ffff756665666666ff666566ffff
  0x1ff6677777777ff777776ff77ff5675665665ff656656ff5676ff75767676ff767666ff7677ff76776676ff767766ff767766ff776777ff767666ff776655ff566566ff766666ff66767676ff7776ff767666ff76766666ff6677ff767766ff6676667677ff77ff777776ff7676667566ff76ff666666ff666675657666ffff666675ff667666766676ffff667766ff66ffffffffffffffffffffffffffffffffffffffffffffffff776676766776ffff7666ff67656576667666ffff7666ff75766676676676ff77ff76ff66676676676676ff66ff76ff66766675666676ff6667ffff66665566666666ff7666ffff66ffffffffffffffffffffffffffffffffffffffffffffffff666675767676ff667666ffff766676676676ff767767ffff
  0x1ff7576766666ff6666ff6676ff5463545454ff5446ff554565ff75766666ff6666ff666564ff64646565ff6556ff55557675ff766676ff6676ff66764342ff434344ff5444ff3343757575ff6666ff6666ff6566545354ff5455ff5555ff445465656576ff66ff6665ff666564646465ff55ff6555ff55556564656565ffff6666ff55655453645454ffff5455ff4454ffffffffffffffffffffffffffffffffffffffffffffffff656565766666ffff65ff6666545354545454ffff55ff4454545365546455ff65ffff4454656566665666ff56ffff6665ffffffffffffffffffffffffffffffffffffffffffffffff656475655565ff6555ffff65555465656566ff6666ffff64646564656565ff6556ff66ff656465555556ff6665ff54ff
  0x1ff7676767676ff7676ff7777ff6564556565ff5566ff665576ff76776677ff7776ff677766ff75666676ff6676ff67676665ff766666ff7675ff66767676ff766676ff7676ff6777767676ff7776ff7676ff7777667675ff6676ff7676ff676767767566ff76ff6666ff666666766566ff76ff6675ff76676776756666ffff6666ff67666665756666ffff6675ff6666ffffffffffffffffffffffffffffffffffffffffffffffff667675766666ffff65ff6666777676667676ffff76ff6777677675666766ff66ffff7666566565665565ff65ffff5666ffffffffffffffffffffffffffffffffffffffffffffffff677676776767ff7676ffff77666675666666ff6666ffff66666665666666ff6675ff66ff777776777777ff7776ff77ff
  0x1ff6675766666ff66ff666666ff4352434343ff43ff34443465ff74756565ff65ff56656554ff63545454ff54ff4545456666ff655665ff65ff5666656464ff645564ff54ff466555657664ff6565ff65ff567565656463ff5454ff55ff45554566656465ff65ff55ff55565554546354ff54ff54ff4555455665646566ffff55ff6566556554635464ffff54ff455545ffffffffffffffffffffffffffffffffffffffffffffffff656564655555ffffff566556656464646564ffffff555555ffffffffffffffffffffffffffffffffffffffffffffffff655463545454ff54ffff5545566564655555ff65ffff6566657564656555ff65ff56ff66655564556565ff55ff55ff55545463646454ff54ff4565ff655564555555ff65ff5665ff
  0x1ff7567767667ff76ff766676ff6675766666ff66ff66666676ff66776667ff67ff75677676ff66777666ff76ff7667677776ff767666ff76ff7667776565ff666666ff66ff666666777676ff7777ff77ff767777767666ff7666ff76ff76677666756676ff66ff66ff75666666766676ff76ff66ff7577667676767777ffff77ff7677767675667666ffff66ff756666ffffffffffffffffffffffffffffffffffffffffffffffff767676777666ffffff666766767576767666ffffff766676ffffffffffffffffffffffffffffffffffffffffffffffff867676777777ff67ffff7777666556666555ff65ffff5666777666777767ff76ff76ff76767676777777ff77ff76ff77667666767676ff66ff7567ff777676677666ff77ff6767ff
  0x1ff7576767676ffff76756666ff6565656665ffff6655665676ff76676676ffff7665677666ff75666676ffff766566666675ff666676ffff667566666575ff666676ffff66656666767676ff7776ffff76767776667566ff6666ffff6565666666756666ff66ffff6675666666667566ff76ffff666576666675766666ffffff667566666665766666ffffff76656665ffffffffffffffffffffffffffffffffffffffffffffffffffffffffffffffffffffffffffffffffffffffffffffffff767576767676ffffff766666556465555565ffffff645555767675666676ffff66ff7666666566666666ffff75ff6666777676777777ffff7676ff76656566666666ffff6665ff66667675667676ffff766576ff667665666666ffff656666ff
  0x1ff7566667666ffff76656666ff5463545454ffff5545554575ff65666666ffff7665657664ff64656565ffff555556566665ff766666ffff756666665353ff545454ffff55464454656575ff7676ffff76666675646464ff6565ffff5555565566756566ff66ffff6565666664656465ff65ffff655566566675657666ffffff666566666464646565ffffff65555555ffffffffffffffffffffffffffffffffffffffffffffffffffffffffffffffffffffffffffffffffffffffffffffffff656475656566ffffff565565556455655565ffffff645555756574656565ffff66ff6656555455655555ffff64ff5555757575756666ffff6666ff66656565666666ffff6665ff65646464656565ffff655556ff756565666666ffff656665ff
  1
  1
  0x1ff75767676ffff7677756666ff65646565ffff555655655576ff667666ffff667675667666ff657666ffff66666566667676ff7777ffff76766676766565ff6665ffff6666656666667565ff66ffff6666656666667565ff66ffff666665666566756566ffffff666665666666766576ffffff6666657666ffffffffffffffffffffffffffffffffffffffffffffffffffffffffffffffffffffffffffffffffffffffffffffffff7776767677ffffff766676776665667666ffffff666566657676767676ffff76ff7676765564556555ffff55ff6455557676657666ffff6667ff76666665666666ffff6665ff65667676767777ffff677776ff766565656666ffff666665ff666666657676ffff66666576ff7676767676ffff76767676ff
  0x1ff76667677ffff7675756666ff54635455ffff544545454576ff756666ffff666666666665ff646565ffff65555556566676ff7667ffff66756566666464ff6565ffff6555565555766675ff66ffff6666666666646464ff65ffff655555555566667566ffffff666665676665656465ffffff6655555656ffffffffffffffffffffffffffffffffffffffffffffffffffffffffffffffffffffffffffffffffffffffffffffffff6666756666ffffff656666667565756566ffffff666656666565746566ffff65ff5656565665556566ffff55ff6456557565746566ffff6556ff56565565556556ffff6564ff55566565646566ffff655555ff566565656666ffff666665ff656565646565ffff65555556ff6565656666ffff76656665ff
  0x1ff756676ff66ff7766666666ff556465ff55ff656556655677ff7677ff77ff777676676676ff7576ff66ff66656666667665ff76ff66ff77667666766565ff66ff66ff7566665666777676ffff77ff7676667777766565ffff66ff7665666666ffffffffffffffffffffffffffffffffffffffffffffffff77767676ffffff777666777676756576ffffff7675666666ffffffffffffffffffffffffffffffffffffffffffffffff76656566ff66ffff6566666676756676ff66ffff6676667676667576ff66ff76ff66666766657666ff66ff66ff65666576667576ff66ff7676ff766765645565ff55ff6655ff556577666677ff66ff776676ff7766756576ff66ff666665ff6666667576ff66ff66766676ff76656566ff66ff76656666ff
  0x1ff756676ff76ff7675756666ff546354ff54ff544545454576ff7566ff66ff666565666665ff6465ff65ff65555556566675ff76ff66ff66656566665453ff54ff55ff5556564444766675ffff66ff6666666666656464ffff66ff6655555555ffffffffffffffffffffffffffffffffffffffffffffffff66657566ffffff666665666665646565ffffff6565555555ffffffffffffffffffffffffffffffffffffffffffffffff66657566ff66ffff6566666665646565ff65ffff5565555565646465ff65ff65ff56555555645565ff65ff55ff64555565646465ff65ff6556ff555555645565ff55ff6564ff555565656465ff65ff655555ff5666656566ff76ff666665ff6565656465ff65ff65555556ff66656566ff66ff76656665ff
  0x1ff7576ff7676ff7676756666ff5564ff6555ff556655655575ff75ff6666ff666665667665ff75ff6666ff66656566667676ffff6667ff77756676665554ffff6566ff6566655564ffffffffffffffffffffffffffffffffffffffffffffffff657575ffff66ff6665656665666575ffff66ff6676656665657575ff66ffff6666756665656575ff66ffff6665656665ffffffffffffffffffffffffffffffffffffffffffffffff667575ff6666ffff65656666656576ff6666ffff65756665666575ff6666ff76ff666675556465ff5555ff55ff645554766675ff6666ff6676ff7666656565ff5556ff6664ff6555667676ff7667ff667676ff75646565ff6566ff655565ff65666675ff7666ff66766576ff756665ff6666ff66656676ff
  0x1ff8666ff7676ff7676757767ff6565ff6564ff645646565676ff76ff7776ff767666767765ff66ff7675ff75665667676676ffff6666ff76756676666565ffff6575ff7556565656ffffffffffffffffffffffffffffffffffffffffffffffff677676ffff76ff7666667777657565ffff75ff7566566766667676ff77ffff7676666676657565ff76ffff6566566666ffffffffffffffffffffffffffffffffffffffffffffffff777676ff6776ffff76677767646465ff6565ffff65555565757575ff7675ff76ff676666567566ff6665ff65ff656666757574ff6565ff6556ff6656666556ff6665ff6565ff6666757675ff7675ff766666ff66667676ff7676ff767766ff76657565ff7675ff65665667ff767676ff7776ff76766776ff
  0x1ff64ff656565ff6566645555ff65ff656665ff556655666565ffff665566ff566664566556ffff656565ff5565645555ffffffffffffffffffffffffffffffffffffffffffffffff6676ffff6676ff66767576665564ffff5565ff55656455545564ff65ff55ff55566455555665ff65ff65ff55656466555564ff6555ffff55556455555564ff6555ffff5575645555ffffffffffffffffffffffffffffffffffffffffffffffff6676ff766666ffff656566666564ff656565ffff656455656665ff766666ff66ff7566664453ff544454ff44ff5344446666ff765666ff5676ff66655665ff655555ff5564ff65556665ff666666ff666675ff655554ff655555ff555564ff555665ff756565ff55656466ff6665ff656666ff66656565ff
  0x1ff76ff777777ff7776767777ff65ff656454ff645646565576ffff777776ff767766767665ffff666665ff7566565757ffffffffffffffffffffffffffffffffffffffffffffffff7676ffff7776ff76766676767575ffff7565ff76665666667676ff77ff76ff76766667766575ff76ff65ff65665666666776ff7777ffff76766677766464ff6565ffff6566565565ffffffffffffffffffffffffffffffffffffffffffffffff7676ff777666ffff766677667575ff767675ffff666666666564ff656566ff75ff5755656675ff666666ff66ff6566667676ff757565ff7567ff66666665ff666666ff6675ff66667575ff766666ff756656ff667666ff677676ff767666ff667565ff767665ff65665667ff7666ff677666ff76766776ff
  0x1ffff76766667ff7775756667ffff64555555ff5565565555ffffffffffffffffffffffffffffffffffffffffffffffff65ffff665556ff666466556664ffff555556ff656565546575ff65ff6666ff666566667665ff65ff5556ff666465556665ff6566ff56ff666465555676ff7566ff66ff666566656676ff766666ffff666565656665ff656665ffff6664655566ffffffffffffffffffffffffffffffffffffffffffffffff65ff65665656ffff6455556665ff65665556ffff6465556665ff65665656ff66ff66657666ff65655556ff56ff64556576ff75666666ff6675ff666654ff55554445ff5553ff445576ff66666657ff676576ff7765ff65665666ff666565ff6666ff75766666ff66656666ff64ff65665556ff65546555ff
  0x1ffff76777777ff7776766766ffff65666565ff6556565646ffffffffffffffffffffffffffffffffffffffffffffffff77ffff777777ff777676676755ffff565565ff655656464677ff76ff7777ff777777777766ff65ff6676ff756666575677ff7777ff76ff777777776765ff6465ff65ff655555565677ff767776ffff677776676666ff756666ffff6666665657ffffffffffffffffffffffffffffffffffffffffffffffff77ff76777677ffff7667676765ff75656666ffff6666565666ff75666666ff76ff66575767ff66666676ff66ff66575666ff75666676ff6666ff575767ff66666666ff7666ff565676ff75766676ff766666ff6767ff76677777ff766776ff6765ff64656565ff65655566ff77ff66676777ff76767767ff
  0x1ffffffffffffffffffffffffffffffffffffffffffffffffffff66766666ff6675766666ffff55655555ff6564655556ff64ff655555ff6564665555ff64ff556556ff6565665565ff7566ff6666ff6675666666ff6455ff5555ff6564655555ff756676ff66ff6665656666ff655565ff65ff6564656556ff75666666ffff6665656666ff64566565ffff6564655555ffffffffffffffffffffffffffffffffffffffffffffffffff6565655555ffff64566555ff6466656565ffff65655565ff7566665656ff66ff766666ff6556656565ff55ff646655ff7666766666ff6775ff7666ff5345544444ff5453ff4444ff7566665656ff666576ff66ff6566666666ff666565ff65ff6555655555ff65646565ffff6555555555ff65645665ff
  0x1ffffffffffffffffffffffffffffffffffffffffffffffffffff75667676ff7667676676ffff75767576ff7667666767ff76ff766676ff7777767777ff64ff656465ff6556565555ff6775ff7676ff7667677676ff7575ff7575ff7656666666ff767576ff76ff6667666766ff657465ff65ff6567566656ff76767676ffff7667767777ff65746675ffff6656666656ffffffffffffffffffffffffffffffffffffffffffffffffff7676777676ffff76667777ff7575757576ffff66666666ff7575767576ff76ff676666ff7566666576ff66ff656666ff7575757576ff6667ff6666ff6565766566ff7666ff6666ff7675767666ff766767ff67ff7676777676ff776776ff76ff6574656565ff65565656ffff7676777676ff76667776ff)
 (mkT
  0x1ff66666666ff6676657576ffff65645555ff6565656565ff66ff766766ff7666657566ff66ff756666ff6566757676ff5665ff5655ff6666645665ff6465ff5655ff6565646655ff767666ff67ff6677656676ff656565ff65ff6566646566ff66766667ffff6666757566ff65657566ffff6666757565ffffffffffffffffffffffffffffffffffffffffffffffffff6565655655ffff65646565ff6475655655ffff65646565ff6576766666ff66ff756666ff6465655555ff65ff646565ff6566666756ff6676ff6666ff6565665655ff5566ff6465ff6566756766ff666665ff76ff5554544544ff545553ff54ff7676665767ff76666676ffff5565656666ff65556564ffffffffffffffffffffffffffffffffffffffffffffffffffff
  0x1ff66666766ff6677757676ffff76656666ff6666666676ff66ff766766ff6666757676ff76ff767767ff7667767677ff6676ff6766ff6667756676ff6576ff6766ff6666657676ff777767ff77ff7767767676ff657666ff76ff6666756676ff76666667ffff6667757676ff76777677ffff7766767676ffffffffffffffffffffffffffffffffffffffffffffffffff5565655655ffff66646565ff7677767777ffff76767777ff6676666766ff67ff756676ff6576666666ff76ff756666ff6677767767ff7677ff7677ff6666666666ff5657ff6676ff6676766766ff667775ff76ff6666566656ff656665ff66ff7677776777ff77777677ffff6676666767ff66577666ffffffffffffffffffffffffffffffffffffffffffffffffffff
  0x1ff76766667ff77777676ff77ff65646565ff55556555ff6576ff757666ff66666666ff7666ff656666ff66667565ff666666ff6666ff66767566ff667566ff6666ff66666576ff66777766ff76ff77767676ff67667665ff66ff66667566ff7666667566ffff66667566ff6666767566ffff66667566ff76ffffffffffffffffffffffffffffffffffffffffffffffff7666666666ffff667566ff666566756666ffff667566ff767666666666ff66ff7566ff676566655666ff66ff6576ff667676766767ff6777ff76ff766666656566ff6666ff65ff667677766777ff777776ffff776555555555ff556564ffff55ffffffffffffffffffffffffffffffffffffffffffffffff7667666677ff77677676ffff6666666666ff66667565ffff
  0x1ff66776657ff76777676ff67ff66766657ff66766676ff7766ff667767ff66676675ff7676ff766767ff67767676ff776666ff6657ff66777666ff776566ff6656ff66676565ff66667666ff67ff66677565ff76767777ff67ff76777676ff7776677767ffff67777676ff7766666676ffff66667675ff76ffffffffffffffffffffffffffffffffffffffffffffffff6666766656ffff767576ff666677767767ffff767676ff766666776657ff67ff7666ff766566766656ff65ff7566ff666666777757ff6677ff76ff776666666657ff6667ff76ff767677777767ff667776ffff675555665546ff556665ffff66ffffffffffffffffffffffffffffffffffffffffffffffff7677677767ff77777666ffff6666666656ff66667677ffff
  0x1ff66776655ff666665ff6666ff76756666ff656576ff666665ff666766ff656765ff666665ff766665ff666665ff66666565ff5655ff656664ff65665354ff4544ff545555ff4455757666ff66ff666665ff6666646565ff55ff655555ff556565656666ffff666765ff666664666566ffff656666ff5566ffffffffffffffffffffffffffffffffffffffffffffffff5465665655ffff6664ff65567575666666ffff7675ff65766465565655ff65ff64ff65666364545554ff64ff55ff54656465565655ff6566ffff55656465665655ff6556ffff6565ffffffffffffffffffffffffffffffffffffffffffffffff6566665666ff766766ffff765465666665ff555655ffff657566666766ff666765ff76ff6465655555ff656564ff55ff
  0x1ff77766776ff776776ff7777ff65645655ff656656ff656666ff766766ff666765ff667766ff756676ff667765ff76765565ff5655ff666664ff65666566ff6766ff666675ff7667667666ff66ff677775ff7666566565ff65ff656664ff766666766677ffff667775ff667666667566ffff667665ff7566ffffffffffffffffffffffffffffffffffffffffffffffff6676656766ffff6765ff76666676756666ffff7665ff66775565655655ff66ff64ff65666676756666ff76ff65ff76776666766757ff6677ffff67776666665665ff5656ffff6666ffffffffffffffffffffffffffffffffffffffffffffffff6776765767ff767766ffff775665656666ff566675ffff666666756766ff766765ff76ff6676656666ff666665ff76ff
  0x1ff66656666ff6666ff757666ff54534444ff5454ff55545566ff756676ff6666ff66666665ff645565ff5565ff6665666766ff6556ff6665ff6666667576ff6566ff6665ff666666667665ff66ff6675ff667666666564ff65ff6565ff66666676766566ffff6666ff66666665556455ffff6565ff666566ffffffffffffffffffffffffffffffffffffffffffffffff6665645555ffff65ff6565565565645565ffff65ff6665665665645655ff66ffff6565666565645555ff65ffff666566ffffffffffffffffffffffffffffffffffffffffffffffff5665645655ff6666ffff65666665545555ff5565ffff65657776665667ff7666ff67ff776665646666ff5555ff55ff656666656666ff7766ff6676ff6565645555ff6665ff6565ff
  0x1ff66665765ff6667ff756666ff66756666ff6676ff76766776ff776777ff7677ff76677776ff766666ff7677ff7677677666ff5665ff7667ff6666676465ff5655ff6566ff566566767767ff66ff6777ff667766756666ff75ff6666ff65676666766666ffff6667ff75667676767676ffff7777ff767677ffffffffffffffffffffffffffffffffffffffffffffffff7566665665ffff66ff6666667677766676ffff77ff7677777566665665ff76ffff6566667566665665ff66ffff666666ffffffffffffffffffffffffffffffffffffffffffffffff7677766766ff7777ffff77776555554554ff5556ffff55567676665777ff7667ff77ff776566666666ff6667ff75ff667566776666ff7677ff6676ff7566665665ff6666ff6666ff
  0x1ff77777777ff77ff76767676ff76656666ff66ff6565767666ff766766ff66ff6565767666ff766666ff66ff757566666676ff6766ff66ff656566666576ff6766ff66ff65656666767666ff66ff66ff65657676667666ff66ff66ff6565666666766667ffff66ff6575666666767667ffff66ff76757676ffffffffffffffffffffffffffffffffffffffffffffffff6676666766ffffff756566666676766766ffffff75767676ffffffffffffffffffffffffffffffffffffffffffffffff6677767767ff67ffff7677776565555655ff55ffff6465656677767767ff67ff76ff77776565555655ff55ff64ff65657777666777ff77ff7676ff775565655666ff55ff6564ff657777666777ff77ff767677ff5565655655ff66ff646565ff
  0x1ff66766666ff66ff75667666ff76656566ff66ff6665666665ff666676ff66ff6565666666ff667666ff66ff756576666676ff6666ff76ff756676665465ff5655ff65ff64565566757676ff76ff76ff76667776657666ff66ff66ff6565666666766667ffff66ff7575666665766676ffff66ff76656676ffffffffffffffffffffffffffffffffffffffffffffffff6565655655ffffff646565566566766666ffffff75667666ffffffffffffffffffffffffffffffffffffffffffffffff7576666666ff66ffff6666766566666666ff56ffff6566656576766666ff66ff75ff76675566656556ff65ff65ff65666576666676ff76ff7666ff765565557666ff55ff6564ff656475656665ff65ff655565ff6565655655ff66ff645565ff
  0x1ff66666766ffff7765656666ff65645555ffff655565656655ff655655ffff666465655666ff756666ffff76757676665566ff5655ffff66645665665465ff5655ffff6664556566666666ff66ffff7675666666656565ff65ffff666465666666767667ffffff777576666666667566ffffff7675767566ffffffffffffffffffffffffffffffffffffffffffffffffffffffffffffffffffffffffffffffffffffffffffffffff5566655665ffffff645565665565655655ffffff646565665566666756ffff77ff6666776565555655ffff66ff6465656676656766ffff7765ff76674454554544ffff5553ff54556666665666ffff666576ff676666666666ffff667575ff756666666766ffff67756666ff5566655655ffff65646565ff
  0x1ff65665655ffff6664756556ff65645555ffff656665655676ff776777ffff677676666666ff766666ffff66656666666665ff5655ffff66645565566465ff5655ffff6664665556757666ff66ffff7675667666656565ff65ffff666465665676766667ffffff677576666675667676ffffff6676766566ffffffffffffffffffffffffffffffffffffffffffffffffffffffffffffffffffffffffffffffffffffffffffffffff6565655655ffffff645565666455655655ffffff646565557576656656ffff66ff7666666565665655ffff56ff6465556465656665ffff6665ff65565554554544ffff5553ff54457676665777ffff676676ff676566666666ffff566565ff656566666666ffff66756676ff5565655655ffff66646565ff
  1
  1
  0x1ff556656ffff656664656556ff556455ffff65656565656666ff6667ffff66676575666666ff6566ffff6666657565666555ff56ffff6566645565666455ff56ffff656664656566666666ffffff666675656666656565ffffff656664656666ffffffffffffffffffffffffffffffffffffffffffffffffffffffffffffffffffffffffffffffffffffffffffffffff65556556ffffff666465655666667566ffffff767576766665556556ffff65ff6455656665556556ffff65ff6465656665566566ffff6666ff76666765556556ffff5556ff64656565667567ffff667775ff766754445545ffff545553ff545576676757ffff76676676ff7755655566ffff55566564ff6576666667ffff6667756676ff65556556ffff6565646565ff
  0x1ff757676ffff767675766666ff656565ffff66655566566676ff7667ffff66766576766766ff7566ffff6676657666666675ff66ffff6676756666666575ff66ffff667665666666767676ffffff777676767677667566ffffff666665656666ffffffffffffffffffffffffffffffffffffffffffffffffffffffffffffffffffffffffffffffffffffffffffffffff66756666ffffff667566666666667566ffffff766566667666757666ffff66ff7566666666657666ffff66ff6576656676767566ffff6676ff66667666656666ffff6666ff75666676757676ffff767676ff666655646555ffff556564ff555566767566ffff76766576ff7666766566ffff66666665ff6677767677ffff7777767676ff65656666ffff6666656666ff
  0x1ff6676ff66ff666666666565ff6665ff66ff66666565657566ff76ff67ff66676675667666ff76ff76ff6666757576766666ffff66ff6666656565766566ffff66ff656665656565ffffffffffffffffffffffffffffffffffffffffffffffff666666ffffff666775656675667676ffffff666676757576ffffffffffffffffffffffffffffffffffffffffffffffff666666ff66ffff6665656566757676ff66ffff7675766675666666ff66ff66ff65656565656666ff66ff66ff65656565757676ff66ff6676ff766676555565ff55ff5556ff546564667776ff67ff676776ff7676555555ff55ff556554ff5465666676ff77ff66676675ff76556565ff56ff55566564ff65666767ff67ff6767766676ff666666ff66ff6666657565ff
  0x1ff7676ff66ff767675766677ff7675ff66ff76656666666675ff76ff76ff76767666767766ff76ff66ff7666757666776676ffff67ff7776756666676576ffff66ff667675666676ffffffffffffffffffffffffffffffffffffffffffffffff767677ffffff667776767777657676ffffff767675666677ffffffffffffffffffffffffffffffffffffffffffffffff657666ff66ffff7675666666657676ff66ffff7675766666667676ff67ff77ff75666667546565ff65ff65ff64556566767776ff67ff7776ff767677767666ff66ff6666ff756676657676ff76ff667775ff7667566565ff56ff656564ff5566667676ff67ff76667576ff77657676ff66ff66666565ff76657676ff76ff7666756676ff656666ff66ff6676756666ff
  0x1ff65ff5655ff565655646565ff65ff5655ff55566564656555ffff6666ff55565564666555ffff6566ff555675647665ffffffffffffffffffffffffffffffffffffffffffffffff6676ffff66ff6666656576665565ffff65ff5556656465655566ff66ffff5556656456655565ff66ffff555666646565ffffffffffffffffffffffffffffffffffffffffffffffff6565ff5655ffff56656465556666ff6666ffff66657566756565ff5655ff56ff556465655565ff5655ff65ff556465666576ff6666ff6666ff7566665554ff4544ff4445ff5354545666ff6656ff566666ff66666665ff5655ff555664ff65656676ff5667ff66676665ff764454ff6555ff44456553ff546666ff6666ff6657666576ff5565ff5555ff5555646465ff
  0x1ff66ff6766ff767675667666ff66ff5565ff66656666666666ffff6666ff66767566666766ffff6666ff767675667666ffffffffffffffffffffffffffffffffffffffffffffffff6676ffff66ff6676756666665565ffff65ff6566646666666666ff67ffff6676756666666676ff66ffff767675666576ffffffffffffffffffffffffffffffffffffffffffffffff5665ff5655ffff66645665566676ff6666ffff76756676765565ff5655ff66ff645665665565ff5655ff65ff646665666566ff6756ff6676ff6666766665ff6666ff6666ff7566666676ff6766ff777675ff76674554ff4544ff545553ff54556666ff5666ff76666576ff766666ff6666ff66667565ff665665ff5655ff6566646665ff5565ff5655ff6665645665ff
  0x1ffff766766ff666765756666ffff645555ff556565656566ffffffffffffffffffffffffffffffffffffffffffffffff65ffff5655ff55666455656664ffff5655ff55666465556676ff66ff66ff66767566756665ff65ff65ff65666465666665ff6556ffff55666465655675ff7566ffff667675766576ffffffffffffffffffffffffffffffffffffffffffffffff65ff655655ffff666465655565ff656666ffff666576656665ff655655ff55ff6455656664ff655555ff55ff6465656665ff666756ff5667ff76667665ff655655ff5556ff64656565ff756666ff667775ff766654ff554544ff445553ff545576ff665766ff66676676ff7766ff666656ff66667575ff6665ff666666ff6667756676ff65ff555655ff5555646565ff
  0x1ffff767766ff757666667766ffff756666ff757666667666ffffffffffffffffffffffffffffffffffffffffffffffff66ffff6766ff76767556766765ffff6766ff75667566666676ff77ff77ff76777667877666ff76ff66ff75667566766677ff7777ffff76777676777666ff7676ffff767665766677ffffffffffffffffffffffffffffffffffffffffffffffff66ff766666ffff767566765766ff756666ffff767576766666ff666766ff76ff6556767665ff766666ff75ff7566766666ff666767ff7677ff76777766ff666766ff6566ff65766566ff767776ff757776ff766755ff655655ff646664ff655676ff766767ff76777676ff7766ff667666ff65666665ff6666ff767777ff7676766687ff66ff756666ff6675756676ff
  0x1ffffffffffffffffffffffffffffffffffffffffffffffffffff665666ff666665665566ffff655555ff656564656555ff54ff4544ff555553455455ff54ff4544ff645553565455ff6556ff55ff556664566555ff6455ff54ff545563565555ff655656ffff556664665565ff656565ffff656564656465ffffffffffffffffffffffffffffffffffffffffffffffffff54554544ffff5553555445ff65655555ffff6564656565ff54554544ff55ff53455455ff54554544ff54ff53555455ff65665646ff5566ff665666ff65655556ff6665ff656566ff65655655ff666664ff6556ff43443433ff434442ff4344ff65564656ff65565566ff66ff55555555ff55556465ff65ff55565655ff6666645665ffff54544544ff5554535554ff
  0x1ffffffffffffffffffffffffffffffffffffffffffffffffffff767776ff666766757766ffff766676ff666776757676ff66ff6666ff666675657666ff66ff5665ff666665765666ff7776ff76ff777676767677ff6665ff76ff666665756666ff667667ffff666775756666ff667566ffff666676756666ffffffffffffffffffffffffffffffffffffffffffffffffff66666766ffff6665757666ff77767676ffff6666766776ff66656766ff66ff65657676ff66656665ff66ff65756666ff67766766ff7777ff766777ff65565655ff5556ff646565ff76756765ff666766ff6666ff55665655ff656664ff6556ff77766777ff77777676ff77ff65666666ff55566664ff55ff76666766ff7667767576ffff66666666ff6666656566ff)
 (mkT
  0x1ff65667666ff6565656566ffff64636454ff5454454555ff64ff656665ff6665556566ff64ff647565ff6465555556ff6665ff7666ff5666657565ff5253ff5443ff5353354444ff646565ff65ff6565556575ff536454ff54ff5454445445ff64656566ffff5555556456ff64646465ffff6565555565ffffffffffffffffffffffffffffffffffffffffffffffffff6565556655ffff65646565ff5364546554ffff54445455ff5565557655ff66ff645565ff5364546454ff64ff445455ff6464756555ff6565ff6556ff4554556554ff4444ff5355ff6465656565ff556555ff66ff5454466544ff545453ff54ff5364546554ff54544454ffff6465656665ff55555564ffffffffffffffffffffffffffffffffffffffffffffffffffff
  0x1ff66667766ff7667657676ffff66656566ff6566666666ff65ff666666ff6566656676ff76ff767666ff7667767677ff6677ff7776ff7667767676ff6565ff5665ff6455565666ff757666ff76ff7676666676ff657666ff66ff6566656666ff76666666ffff6556656666ff76667576ffff7666667676ffffffffffffffffffffffffffffffffffffffffffffffffff5565556655ffff67646565ff6566756666ffff76666676ff6677667666ff66ff656676ff6465656655ff65ff555565ff6676767667ff7667ff7676ff5666566665ff5566ff6566ff6566666666ff656765ff76ff6666666656ff656665ff76ff6576666766ff65666566ffff7666666666ff65566666ffffffffffffffffffffffffffffffffffffffffffffffffffff
  0x1ff76667666ff65666665ff66ff54635454ff54544556ff5575ff767665ff76766666ff7664ff646565ff65655555ff566576ff7666ff66766566ff766364ff6454ff64644655ff55757666ff66ff66766566ff76536454ff54ff54554444ff5564656566ffff65665555ff6565656465ffff65655565ff66ffffffffffffffffffffffffffffffffffffffffffffffff6565657666ffff666566ff666465646565ffff655565ff666576657666ff66ff6566ff666465646565ff65ff5555ff667575757566ff6576ff66ff665565556565ff5555ff64ff657565746565ff656556ffff665565566555ff556564ffff65ffffffffffffffffffffffffffffffffffffffffffffffff6475657565ff65655555ffff6465656655ff65665555ffff
  0x1ff66677757ff66676675ff66ff66656656ff65666666ff6665ff767766ff66766666ff7676ff767756ff66766676ff776666ff6667ff66666675ff766455ff6655ff54555656ff55756666ff66ff65666665ff66656666ff56ff66666666ff6675666676ffff66676665ff7666666566ffff66666675ff76ffffffffffffffffffffffffffffffffffffffffffffffff6666667656ffff776566ff666566756666ffff766666ff666666767657ff66ff6666ff676465656555ff65ff5555ff656666767657ff6677ff76ff766566667756ff6566ff65ff667566766666ff656766ffff665555666646ff556655ffff66ffffffffffffffffffffffffffffffffffffffffffffffff7576767666ff66666666ffff6666766756ff65666666ffff
  0x1ff64667555ff546655ff6565ff64646455ff646556ff555563ff666554ff646545ff656463ff656454ff646545ff45556576ff6666ff665766ff66664142ff4332ff424424ff3343636466ff54ff646546ff6465525354ff43ff535435ff455463645565ffff545645ff556463546555ffff645545ff5555ffffffffffffffffffffffffffffffffffffffffffffffff5464566554ffff6654ff65556464656564ffff6545ff55656465566655ff65ff54ff65665253545443ff53ff35ff44546354655454ff6465ffff45555455566555ff4545ffff6554ffffffffffffffffffffffffffffffffffffffffffffffff5253555443ff535435ffff546354555554ff545545ffff646364656454ff645545ff65ff5354555544ff546544ff54ff
  0x1ff67777676ff677766ff6777ff66757566ff656666ff766666ff667666ff666665ff667667ff767666ff667766ff66775666ff7665ff667765ff65666566ff6665ff566555ff6666667667ff66ff667775ff7677566666ff65ff666665ff666766667666ffff566655ff566666766676ffff667765ff7566ffffffffffffffffffffffffffffffffffffffffffffffff6677667666ffff6765ff66676576767666ffff7665ff66665565567655ff66ff64ff65765666667665ff66ff65ff66676666767657ff6677ffff66774555666654ff5556ffff5656ffffffffffffffffffffffffffffffffffffffffffffffff5565567655ff656664ffff666666766766ff566656ffff666676667666ff766665ff76ff6677667666ff666665ff76ff
  0x1ff66757666ff6666ff666666ff53525343ff4344ff35444466ff746565ff6566ff56666564ff636454ff5455ff4655556665ff7556ff5566ff6666665453ff5444ff5454ff555444766564ff65ff6566ff567566646463ff54ff5455ff45555556656465ffff5556ff55566554546364ffff6455ff465555ffffffffffffffffffffffffffffffffffffffffffffffff6665646555ffff66ff5565565454636464ffff55ff4655555665647555ff66ffff5565666564636454ff64ffff465555ffffffffffffffffffffffffffffffffffffffffffffffff6564646455ff6565ffff55556665656556ff5656ffff65656564636554ff5455ff46ff555565646565ff5556ff55ff656565647465ff6555ff5666ff6565646555ff6565ff5565ff
  0x1ff66577665ff6667ff756666ff66757666ff6666ff66666666ff677676ff6667ff75677676ff667766ff7576ff6667677677ff7676ff7777ff7666776455ff6655ff6465ff556556667666ff66ff6667ff757676656656ff65ff6566ff65666665655665ffff5556ff64566566766676ffff6667ff757666ffffffffffffffffffffffffffffffffffffffffffffffff7566567665ffff66ff6566667676667676ffff66ff7567766566567765ff76ffff6566666566567665ff65ffff656666ffffffffffffffffffffffffffffffffffffffffffffffff7566677766ff6667ffff76666555466654ff6566ffff55565565566665ff5556ff64ff657676667666ff6667ff65ff766676677676ff6667ff6576ff7566567765ff6566ff6666ff
  0x1ff66766666ff66ff66756676ff76656566ff66ff6566666665ff666666ff76ff6565666666ff667666ff66ff657566766676ff6676ff66ff667566765465ff5665ff55ff56646655757676ff76ff76ff66767677657666ff66ff66ff6565666665656556ffff55ff6564566565667666ffff66ff66756676ffffffffffffffffffffffffffffffffffffffffffffffff6676666766ffffff757566666576667666ffffff65767666ffffffffffffffffffffffffffffffffffffffffffffffff6576766666ff66ffff7567765566656565ff56ffff6566657576666666ff66ff66ff76666566666656ff66ff65ff65666475656665ff65ff5565ff656565655666ff55ff5564ff656576666676ff76ff667676ff5565557655ff66ff646565ff
  0x1ff65667665ff65ff55556666ff64636454ff54ff4646555564ff656655ff55ff5555656564ff647565ff65ff555556566676ff7666ff66ff656565655253ff5443ff43ff35354444646565ff65ff65ff55556565536454ff54ff54ff4444555564655566ffff55ff5554566564656465ffff65ff55556566ffffffffffffffffffffffffffffffffffffffffffffffff6465556655ffffff545565566465646565ffffff55556665ffffffffffffffffffffffffffffffffffffffffffffffff6465656555ff65ffff5556664554466554ff44ffff5355546465656565ff55ff55ff66564554466544ff54ff53ff54555364546554ff54ff4444ff556465556665ff55ff5554ff655364546554ff54ff444455ff6465556655ff65ff545565ff
  0x1ff66667766ffff6765666666ff65647655ffff665556656655ff556655ffff676465655666ff657666ffff76656666766676ff7666ffff77657665766455ff6654ffff6545555565667666ff65ffff7665766676556555ff55ffff665465656666766666ffffff666565666566666576ffffff7665666676ffffffffffffffffffffffffffffffffffffffffffffffffffffffffffffffffffffffffffffffffffffffffffffffff5566557655ffffff645565765565557655ffffff546565765666767656ffff77ff7666765665556655ffff66ff6465656676667666ffff7765ff76664454466544ffff5653ff54655565556665ffff665465ff666666666665ffff666565ff756576666666ffff66656676ff5566556655ffff65546565ff
  0x1ff65566655ffff6664656556ff54635454ffff555646554564ff655665ffff565565665564ff646565ffff65555556565565ff6665ffff66657465565243ff4443ffff4435454434645565ff65ffff6655656556535454ff54ffff554454554564656556ffffff565564565564656565ffffff6655656556ffffffffffffffffffffffffffffffffffffffffffffffffffffffffffffffffffffffffffffffffffffffffffffffff6465556655ffffff545565565354545555ffffff445455457465646555ffff66ff5556564554565554ffff45ff5355446354655554ffff5545ff55455554465544ffff5553ff54455354545554ffff554454ff456465655665ffff565564ff556465656565ffff56555556ff5455556655ffff65546565ff
  1
  1
  0x1ff555666ffff656664656556ff556465ffff65666556656666ff6677ffff76667566666666ff6566ffff6566656565666666ff76ffff6667657565665455ff66ffff646555556556756666ffffff656665656666655555ffffff656664656566ffffffffffffffffffffffffffffffffffffffffffffffffffffffffffffffffffffffffffffffffffffffffffffffff65555566ffffff666465655665666566ffffff766566666665555566ffff65ff6455656664555566ffff65ff5455656566566566ffff6667ff65666656556566ffff5556ff64656575666666ffff656765ff766654444655ffff545653ff545565555576ffff65666465ff6665655566ffff55565564ff6575666666ffff6666656676ff65555566ffff6565646565ff
  0x1ff756666ffff766665766666ff546354ffff54544555455575ff6566ffff66666576766564ff6465ffff6565555556566665ff76ffff6666667566665353ff54ffff545446555444656575ffffff767666767566646464ffffff656555555556ffffffffffffffffffffffffffffffffffffffffffffffffffffffffffffffffffffffffffffffffffffffffffffffff66756566ffffff666565666664656465ffffff655565566666756576ffff66ff6566666664646465ffff65ff5565555575657465ffff6565ff66566655545565ffff5555ff64555565647565ffff656656ff655555645565ffff556564ff555564646465ffff65655565ff5675656566ffff66666665ff6575757575ffff6666666666ff65656566ffff6666656665ff
  0x1ff6576ff66ff656666656766ff6564ff65ff65655556656564ff65ff65ff65655565666565ff65ff66ff6566656566667676ffff77ff6677767676765354ffff54ff545445545554ffffffffffffffffffffffffffffffffffffffffffffffff646565ffffff555555645665656575ffffff666666657665ffffffffffffffffffffffffffffffffffffffffffffffff757566ff65ffff6665656666646665ff65ffff6555656665657666ff66ff66ff65656666646565ff55ff65ff55656565756576ff66ff6666ff756675556565ff65ff5555ff646655757675ff66ff666666ff7666656556ff55ff556564ff6565646565ff65ff65655565ff65645565ff55ff55555564ff65657666ff66ff6666656576ff646565ff65ff6566555565ff
  0x1ff7666ff66ff667765767667ff6665ff65ff75655666565675ff76ff66ff76776666777775ff76ff66ff7566666667666676ffff76ff6667767576666465ffff65ff646555555656ffffffffffffffffffffffffffffffffffffffffffffffff757676ffffff666666656776757575ffffff767666666666ffffffffffffffffffffffffffffffffffffffffffffffff657666ff66ffff7765666666647565ff65ffff6555656655767777ff67ff76ff76677677536454ff54ff54ff44445555757575ff66ff6676ff666766667666ff66ff6566ff656666646565ff65ff556655ff6656666666ff56ff657665ff6566647565ff65ff65665555ff66757676ff66ff66666665ff76647565ff65ff6555555566ff757676ff66ff7676666676ff
  0x1ff55ff6565ff555656645565ff65ff6566ff56556665666555ffff6565ff55565664566555ffff6565ff555655645565ffffffffffffffffffffffffffffffffffffffffffffffff5665ffff65ff5556666465654454ffff54ff4445555355545554ff55ffff4445455345545665ff65ffff555655646565ffffffffffffffffffffffffffffffffffffffffffffffff5565ff6655ffff56566455555565ff7565ffff55656465645565ff7655ff56ff566465654554ff6554ff54ff556355656665ff6566ff5556ff6456653443ff5443ff3334ff4244435655ff6655ff455666ff66556564ff6555ff555565ff65554554ff6554ff44455653ff545554ff5555ff44454553ff545665ff6565ff5546665465ff5565ff6555ff5555566465ff
  0x1ff75ff7666ff767766667676ff65ff6564ff65655646565674ffff6665ff65665656766575ffff7675ff757667565767ffffffffffffffffffffffffffffffffffffffffffffffff7465ffff65ff6576575675667475ffff65ff6576565666666576ff76ffff6566666566667465ff66ffff656656566666ffffffffffffffffffffffffffffffffffffffffffffffff7576ff7765ffff77666676667575ff7676ffff76675666667576ff7766ff76ff666676767475ff7665ff65ff565666667465ff6565ff6576ff5656666566ff7666ff6666ff6566667576ff7676ff767667ff67676666ff6656ff656665ff65666364ff6554ff54654646ff556576ff6766ff66676665ff767475ff7565ff6576565666ff7566ff7766ff7676666676ff
  0x1ffff667666ff667665767666ffff646555ff556555566565ffffffffffffffffffffffffffffffffffffffffffffffff76ffff7666ff66776576657663ffff5544ff54644555645564ff65ff65ff65655565756664ff55ff55ff55665465556665ff5566ffff55666465655675ff6566ffff666665667576ffffffffffffffffffffffffffffffffffffffffffffffff65ff556655ffff666465655564ff656655ffff655565657665ff556655ff55ff6455656664ff556555ff55ff5465656565ff766656ff5666ff76657655ff656655ff5555ff64656575ff657666ff666665ff766654ff466544ff445553ff546564ff556655ff55655465ff6664ff656655ff65665555ff6575ff667666ff6666656676ff64ff555655ff5555546555ff
  0x1ffff666666ff656666656766ffff656665ff646556566656ffffffffffffffffffffffffffffffffffffffffffffffff66ffff7676ff65667665766654ffff5554ff63544546554576ff76ff66ff75766666766765ff65ff65ff64655555565676ff6667ffff65666665676665ff6465ffff656555655666ffffffffffffffffffffffffffffffffffffffffffffffff66ff667666ffff766566765665ff646565ffff656555665666ff667766ff75ff6556766764ff656565ff64ff5555665665ff757666ff7576ff66676755ff566665ff5455ff54665565ff756565ff646656ff665655ff566655ff646564ff655665ff656665ff64655555ff5676ff666766ff65666665ff6665ff657676ff6565665667ff66ff667766ff6575656666ff
  0x1ffffffffffffffffffffffffffffffffffffffffffffffffffff566655ff656664666665ffff556555ff656564655565ff65ff6555ff656654665465ff64ff5555ff555554666565ff6556ff55ff656664666566ff6445ff44ff545553555455ff655666ffff555664555565ff655565ffff656654656465ffffffffffffffffffffffffffffffffffffffffffffffffff54455544ffff5653655445ff65556555ffff6564656565ff64456544ff56ff53455465ff64466544ff64ff53655465ff65666546ff5566ff665566ff64666555ff6565ff656555ff65566655ff666664ff6556ff53355433ff434542ff4354ff64466544ff54555356ff55ff65566555ff55556455ff65ff75566555ff6556645665ffff64456544ff5554536554ff
  0x1ffffffffffffffffffffffffffffffffffffffffffffffffffff756775ff666756656766ffff757665ff757656665667ff76ff7766ff666766757666ff54ff5553ff545536564545ff6675ff75ff667756667667ff6565ff64ff656545655656ff666566ffff666655756666ff657465ffff656656566656ffffffffffffffffffffffffffffffffffffffffffffffffff66666765ffff6665767666ff65746565ffff6556665666ff66657765ff76ff55666667ff65656564ff65ff45655656ff66756565ff7676ff665666ff65666655ff5556ff646655ff65756564ff656646ff5656ff55566655ff656664ff6556ff65646664ff65664555ff56ff66666765ff66665675ff66ff76757675ff7666566667ffff66666665ff6676556666ff)
 (mkT
  0x1ff666677ff677666667566ffff656465ff656555665465ff55ff6566ff666555656456ff66ff6576ff766566767576ff5676ff66ff666666666575ff6465ff66ff655454555565ff667666ffff767667666576ff556565ffff656555656465ffffffffffffffffffffffffffffffffffffffffffffffffff55666566ffff6555556466ff55756566ffff6555656476ff66767666ff66ff66766565ff65766566ff66ff55666565ff66666676ff6666ff656576ff65656565ff6665ff656465ff66666667ff777666ff6566ff44545555ff555444ff5365ff56667677ff77666666ff76ff66655556ff55655564ff64ff65767667ff6666666675ffff55666566ff6565556564ffffffffffffffffffffffffffffffffffffffffffffffffffff
  0x1ff666677ff676667767576ffff766566ff666656666676ff66ff6667ff676657766666ff77ff7677ff777667767677ff6676ff67ff776657666676ff6575ff66ff666556666666ff777767ffff677767767677ff667666ffff676657766676ffffffffffffffffffffffffffffffffffffffffffffffffff66776666ffff6657666576ff66766667ffff6657766677ff66667666ff66ff67757675ff76767667ff76ff66777677ff66766667ff6767ff756676ff66766666ff6776ff666576ff76777677ff777767ff7677ff55655656ff565546ff5566ff67767677ff77666776ff76ff66666666ff66665766ff76ff77777777ff7776677776ffff66666667ff6666577666ffffffffffffffffffffffffffffffffffffffffffffffffffff
  0x1ff667676ff7766677675ff66ff656455ff5565656565ff6666ff6676ff6665666665ff6666ff6566ff6666667575ff666776ff76ff6676767676ff766576ff66ff6665656665ff66667776ffff6766667675ff66667665ffff6666666675ff76ffffffffffffffffffffffffffffffffffffffffffffffff66766666ffff66666675ff7666667566ffff66667675ff7676767566ff66ff667676ff6666667566ff66ff667675ff7666767566ff6666ff6675ff7666767566ff6666ff7675ff7676777667ff777677ff76ff7755656565ff555555ff64ff6567767566ff66676676ffff7666666565ff66666665ffff65ffffffffffffffffffffffffffffffffffffffffffffffff66677676ff6766677675ffff66767566ff6676666675ffff
  0x1ff677767ff7677777676ff66ff677666ff7676667676ff7666ff6676ff6766677675ff7666ff6677ff7666677675ff766667ff67ff7666666675ff766566ff66ff6665666665ff66667766ffff6666676675ff76666766ffff7666676675ff76ffffffffffffffffffffffffffffffffffffffffffffffff55665566ffff55565564ff6576777777ffff76677776ff7676677767ff76ff777676ff7677777676ff76ff667776ff7666677666ff6666ff6665ff7666666667ff7675ff6665ff7676777667ff777777ff76ff7765566666ff666556ff65ff6666677777ff77667777ffff6765566656ff65666666ffff67ffffffffffffffffffffffffffffffffffffffffffffffff76776777ff7776677766ffff76677767ff7666667676ffff
  0x1ff667767ff66556656ff6666ff657566ff65646666ff666554ff6666ff66555655ff566565ff6676ff66656666ff66756576ff66ff66665766ff65765354ff55ff54434544ff5454657667ffff66666766ff6666546566ffff56545555ff6565ffffffffffffffffffffffffffffffffffffffffffffffff54655666ffff555655ff666554655665ffff545655ff656565656666ff66ff6765ff656665656576ff76ff6666ff767565666666ff6666ff66ff756654656556ff6554ff55ff656565656766ff666567ffff656645555655ff564545ffff6554ffffffffffffffffffffffffffffffffffffffffffffffff64656666ff65656656ffff7554656666ff65545555ffff6565666666ff66665766ff76ff65656666ff66656655ff65ff
  0x1ff667677ff67676776ff7676ff656465ff65555566ff655556ff6566ff76566665ff566667ff7676ff76667676ff76765665ff66ff66566666ff65665566ff66ff66566666ff7666667676ffff76677766ff7667566575ffff66566666ff6566ffffffffffffffffffffffffffffffffffffffffffffffff56667567ffff566656ff666656656566ffff566675ff766666766667ff77ff6775ff766666767677ff76ff7676ff767666667666ff6667ff65ff757666757566ff6666ff66ff666667767566ff766666ffff676645546655ff554555ffff6555ffffffffffffffffffffffffffffffffffffffffffffffff67777667ff67677666ffff7756667566ff65566676ffff6666667677ff76676776ff76ff67667676ff66676776ff76ff
  0x1ff666576ff666666ff656666ff545354ff544444ff44645466ff6465ff655555ff55566555ff6465ff656555ff6566656766ff66ff765665ff5676667566ff65ff656565ff667665677665ffff756666ff667666666564ffff655555ff556565ffffffffffffffffffffffffffffffffffffffffffffffff56666476ffff5556ff55666566656465ffff5555ff55766566766566ff66ff66ff66656655556465ff65ff55ff65656566666565ff6666ffff65757666656465ff6565ffff656576ffffffffffffffffffffffffffffffffffffffffffffffff66667566ff666666ffff656666665566ff665656ffff756566767566ff666666ff66ff7666666465ff655555ff55ff6566666566ff666656ff6676ff66666566ff666666ff6575ff
  0x1ff666777ff676667ff756676ff766576ff666666ff65667655ff5666ff675556ff64566566ff7676ff666666ff7576667677ff77ff677777ff7676776465ff66ff665556ff656555667666ffff776667ff757666657666ffff666667ff756666ffffffffffffffffffffffffffffffffffffffffffffffff65676676ffff6667ff65766655655676ffff5556ff64766566766777ff67ff67ff75667676767677ff77ff67ff76777676666677ff6776ffff75767665766666ff6766ffff756666ffffffffffffffffffffffffffffffffffffffffffffffff65667777ff776667ffff776666655666ff565666ffff756666766767ff676667ff75ff7665776677ff666667ff75ff6666666676ff776667ff7576ff76666777ff676667ff7676ff
  0x1ff666667ff7766ff65656666ff656455ff6555ff6555666555ff6556ff6655ff6564566566ff7566ff7666ff767566765566ff56ff6655ff566466655465ff56ff6655ff55646665666666ffff7666ff66756666656565ffff6665ff65646666ffffffffffffffffffffffffffffffffffffffffffffffff55666556ffff65ff5564666555656556ffff55ff6564666566767667ff77ffff7675666666667566ff76ffff76756675ffffffffffffffffffffffffffffffffffffffffffffffff66766567ff7766ffff65677644545545ff5544ffff53555455666667ff7756ff66ff776665655556ff6655ff64ff656566666667ff6766ff6675ff6655666556ff6555ff6564ff6566666656ff6666ff766567ff66666666ff6666ff757575ff
  0x1ff666677ff6766ff66656666ff656476ff6655ff5655666555ff5566ff6755ff6564566566ff6576ff7666ff666576666676ff76ff7766ff766576656455ff66ff6554ff55456555667666ffff7665ff76657666556555ffff6655ff65546665ffffffffffffffffffffffffffffffffffffffffffffffff55665576ffff55ff5564766555655576ffff55ff6554766566766666ff66ffff6565656666666576ff76ffff66657666ffffffffffffffffffffffffffffffffffffffffffffffff66766676ff7766ffff65667644544665ff5644ffff53655456667676ff7756ff76ff766656655566ff6655ff64ff656565766666ff6666ff6665ff7655665566ff6555ff6554ff6555655566ff6665ff655466ff66666666ff6665ff656575ff
  0x1ff667677ff67ff6775756666ff667566ff66ff666565656566ff7666ff66ff667575656577ff7676ff77ff77767676766676ff66ff66ff66666675756566ff66ff66ff6665657575777777ffff77ff7776767676666676ffff66ff6675757575ffffffffffffffffffffffffffffffffffffffffffffffff66667666ffffff666565767566667666ffffff6675757675ffffffffffffffffffffffffffffffffffffffffffffffff66667666ff66ffff6565757666667666ff66ffff7575757666667667ff67ff77ff76767655556555ff56ff55ff64656466667667ff77ff6776ff767655556555ff55ff5664ff646566767776ff67ff677676ff7666666666ff66ff667575ff7566767776ff67ff67767676ff66666666ff66ff66757575ff
  0x1ff767666ff66ff6766766566ff666566ff66ff566665655565ff6667ff67ff566666676566ff6566ff76ff66666566666576ff66ff66ff66766565666455ff56ff65ff5555555545767767ffff77ff6676767676656666ffff66ff5666666555ffffffffffffffffffffffffffffffffffffffffffffffff65766676ffffff566665766565666666ffffff5666666655ffffffffffffffffffffffffffffffffffffffffffffffff76766666ff66ffff6566756665666666ff66ffff6665655676767667ff77ff67ff76766654655655ff56ff45ff55655465666666ff76ff6666ff665566656555ff55ff5665ff645575767667ff66ff676676ff6665766666ff66ff566665ff5566766666ff67ff56766676ff66666666ff66ff66657665ff
  0x1ff666666ffff666766756566ff656465ffff55555555756555ff5566ffff55566564566566ff6576ffff6666667576766666ff66ffff6666666575765465ff66ffff555655546565556655ffffff555655646665556555ffffff555665647565ffffffffffffffffffffffffffffffffffffffffffffffffffffffffffffffffffffffffffffffffffffffffffffffff66666666ffffff676575656666666576ffffff666675767566666666ffff66ff6565756655655566ffff55ff6564656566766666ffff6667ff75667644544555ffff4445ff53655456666677ffff566776ff766655555555ffff555664ff646566666666ffff66676675ff7655665565ffff55566564ff6566665666ffff6656666576ff66666666ffff6666757575ff
  0x1ff767677ffff776776767676ff666565ffff66655665556666ff7666ffff66666675667666ff6576ffff6666666566766676ff76ffff6666767566766566ff66ffff666666656675777776ffffff767676767776556555ffffff555665546665ffffffffffffffffffffffffffffffffffffffffffffffffffffffffffffffffffffffffffffffffffffffffffffffff77767677ffffff677676767666666566ffffff666665667666767666ffff66ff6675767666766666ffff66ff6665667676767566ffff7676ff76667655655555ffff5555ff64566566767677ffff676667ff767666656666ffff666665ff656666766576ffff66666665ff7666666666ffff65666665ff6666766666ffff6667766576ff66766676ffff6666666566ff
  1
  1
  0x1ff6676ffff67666666756665ff6564ffff5555556555666555ff65ffff5655566564566566ff75ffff666566766576666676ffffff676666666576665465ffffff55545555546655ffffffffffffffffffffffffffffffffffffffffffffffffffffffffffffffffffffffffffffffffffffffffffffffff556665ffffff555655646565556565ffffff555665646665667666ffff67ff6665756665666675ffff66ff6676757675556665ffff5655ff55646665556565ffff5655ff65646665667666ffff676666ff756776445455ffff454445ff536554566676ffff67566776ff7766556555ffff56555664ff6565657666ffff6666666675ff76555665ffff5555556564ff65666666ffff576656766576ff666666ffff666656656576ff
  0x1ff7777ffff77677766767677ff7665ffff7666656665666566ff76ffff7766666675677677ff76ffff767666777676766676ffffff766666666576666566ffffff76656666656666ffffffffffffffffffffffffffffffffffffffffffffffffffffffffffffffffffffffffffffffffffffffffffffffff667666ffffff666666756676667666ffffff666676657676767677ffff77ff7776767677667666ffff76ff6676767665777777ffff7777ff76767676656555ffff6665ff65546566777766ffff766777ff767677556566ffff655555ff646665566666ffff77566776ff7666667666ffff66666665ff6566768777ffff7677777776ff87667676ffff7666667665ff76667666ffff777656766576ff766666ffff676676757676ff
  0x1ff55ff66ff56555666645555ff65ff65ff6555556554656444ffff55ff5644455553455455ffff65ff65555565646565ffffffffffffffffffffffffffffffffffffffffffffffff5566ffffff665556666465554454ffffff55444555535554ffffffffffffffffffffffffffffffffffffffffffffffff4455ff65ffff4445455355544454ff65ffff4445665365545565ff66ff66ff56666455655565ff65ff65ff55656465645655ff66ff5655ff566465655454ff65ff5554ff566355655566ff66ff665556ff6456653343ff54ff443334ff4254434555ff66ff66455666ff66555666ff65ff65555565ff65655565ff56ff5655565664ff654455ff55ff5444456553ff545555ff65ff665546665466ff5555ff65ff555555666465ff
  0x1ff76ff77ff77666775767666ff65ff66ff6555666656666665ffff76ff6666676565666666ffff76ff76767676767676ffffffffffffffffffffffffffffffffffffffffffffffff6676ffffff666667667576766676ffffff66666775657566ffffffffffffffffffffffffffffffffffffffffffffffff6677ff77ffff6667656576666566ff66ffff6566655576666676ff66ff66ff66756675666666ff77ff76ff66767676766676ff66ff6666ff756675766676ff66ff6666ff756575667676ff67ff776666ff6676765565ff66ff565556ff6466656777ff77ff77677776ff76765665ff55ff55555664ff64557576ff77ff6676766666ff766666ff76ff6666677565ff666676ff67ff667667766575ff6676ff66ff666666756675ff
  0x1ffff7677ff67666776757666ffff6566ff66666665656576ffffffffffffffffffffffffffffffffffffffffffffffff66ffff66ff6666677565656665ffff66ff6665655565656666ff66ffff6766677575666666ff66ffff66666665756576ffffffffffffffffffffffffffffffffffffffffffffffff66ff6667ffff66666565756666ff6676ffff66666575767666ff6666ff66ff677566656666ff6676ff76ff666675767666ff6666ff6666ff6565656665ff6666ff6666ff6575657666ff6667ff776667ff75667655ff6565ff565555ff64656566ff6677ff67666775ff766755ff6555ff55555664ff546566ff6667ff6766666675ff7655ff5566ff6555566564ff6576ff6777ff776667767676ff65ff5566ff565565646565ff
  0x1ffff7777ff77766776767776ffff6566ff76656666656666ffffffffffffffffffffffffffffffffffffffffffffffff66ffff76ff7665667765666665ffff56ff6564556656655577ff77ffff7776777776777666ff66ffff66656676656666ffffffffffffffffffffffffffffffffffffffffffffffff66ff6676ffff66666675667676ff6666ffff75667666766677ff7676ff77ff777676666766ff6566ff76ff666675666676ff7777ff6776ff7666767676ff6666ff6675ff7665666677ff7677ff777677ff76767755ff5665ff655455ff54555566ff7667ff76656777ff766666ff6666ff66656665ff656666ff6676ff7666667675ff7666ff6666ff7665666665ff6667ff7677ff776666776677ff76ff7677ff777666767676ff
  0x1ffffffffffffffffffffffffffffffffffffffffffffffffffff5566ff66555664655665ffff6665ff66666665666565ff65ff55ff55656665566465ff65ff55ff55555655666465ff7666ffff66666675667566ff6555ffff65555664656465ffffffffffffffffffffffffffffffffffffffffffffffffff665566ffff555664556565ff655566ffff555664657565ff655555ff55ff5664656455ff666666ff66ff6665667575ff655555ff5556ff64556465ff656555ff5565ff64656465ff665657ff665566ff666666ff555555ff565555ff646564ff666666ff66666775ff6566ff544444ff44444553ff5354ff766667ff5666666566ff76ff655566ff6555566465ff65ff666666ff666657656675ffff655555ff555655646564ff
  0x1ffffffffffffffffffffffffffffffffffffffffffffffffffff6566ff66555666645655ffff7566ff76666676756666ff65ff66ff66555666646655ff65ff66ff66556656656665ff7666ffff67666766756666ff6566ffff66555665646655ffffffffffffffffffffffffffffffffffffffffffffffffff666666ffff555656646655ff656566ffff555666646655ff767677ff77ff6776756666ff666566ff66ff6666656665ff667667ff6766ff66757666ff656666ff6665ff66746656ff767677ff776667ff756766ff545655ff554445ff535544ff666666ff66565667ff7665ff666666ff66666665ff6566ff667667ff6666676675ff66ff666666ff6555566664ff55ff666666ff676657766576ffff666676ff666666667566ff)
 (mkT
  0x1ff656666ff665555756456ffff546354ff545454555645ff75ff7667ff667666666666ff64ff6465ff656465555556ff6565ff66ff665565646556ff6243ff44ff445353454434ff656666ffff666666656566ff535454ffff545454445445ffffffffffffffffffffffffffffffffffffffffffffffffff64656566ffff5555556456ff63546455ffff5454545445ff65656566ff56ff65646555ff63545455ff55ff54545445ff55656566ff5666ff645555ff63545464ff5564ff545445ff63546455ff556464ff5545ff55545555ff554444ff5345ff74656465ff65556565ff56ff54545555ff45545453ff44ff64746565ff5665655565ffff54556566ff6555556564ffffffffffffffffffffffffffffffffffffffffffffffffffff
  0x1ff666667ff676657756666ffff666566ff656555666666ff75ff7667ff677666766666ff76ff7566ff666666666676ff6676ff67ff776656656667ff6555ff56ff666455665656ff767766ffff667666766676ff756666ffff667556666666ffffffffffffffffffffffffffffffffffffffffffffffffff76766666ffff6556666566ff65666666ffff6556756666ff65766666ff56ff67666665ff75667667ff66ff76767666ff76767667ff6766ff756666ff64656556ff5665ff655555ff75666667ff666566ff6666ff66655656ff565546ff5556ff75667667ff67656676ff66ff66666666ff66655665ff66ff76767677ff6776677677ffff66666667ff6665566666ffffffffffffffffffffffffffffffffffffffffffffffffffff
  0x1ff656676ff6666667575ff66ff646364ff5454545546ff5576ff7576ff6676767666ff7664ff6465ff6565655555ff566675ff76ff6666667575ff665353ff54ff4554545555ff44767675ffff6676667666ff76646464ffff5565555555ff55ffffffffffffffffffffffffffffffffffffffffffffffff65656566ffff66666665ff6564646455ffff65656555ff5576756576ff66ff667566ff6664656465ff65ff656555ff5666656576ff6666ff6565ff6664645465ff5565ff5555ff5564646465ff556565ff56ff5556546565ff555555ff64ff5565646565ff56656666ffff5565645665ff55656564ffff55ffffffffffffffffffffffffffffffffffffffffffffffff75756575ff6666666666ffff65656566ff5666666565ffff
  0x1ff666677ff6676677676ff77ff667566ff6565656666ff6666ff7677ff7676767766ff7666ff7677ff6665666766ff676676ff67ff7666666675ff766455ff56ff5664656555ff56656666ffff6666666665ff76656666ffff6665666665ff66ffffffffffffffffffffffffffffffffffffffffffffffff65655565ffff55565564ff6575667666ffff75667666ff6665666677ff66ff777666ff6665667666ff76ff767676ff6665666666ff6666ff6665ff6664566566ff6665ff6555ff6565666666ff666566ff65ff6666666666ff666556ff65ff6675667667ff67656676ffff6656565666ff55656665ffff66ffffffffffffffffffffffffffffffffffffffffffffffff75666677ff7766667666ffff65666667ff6675666666ffff
  0x1ff656666ff56555665ff5565ff646465ff55646556ff555564ff7666ff65656656ff556563ff5454ff55645545ff45456465ff66ff66655665ff56655132ff33ff33424434ff2333746566ffff65656655ff5565624344ffff44534445ff3444ffffffffffffffffffffffffffffffffffffffffffffffff63545555ffff545655ff455462435544ffff534445ff344454656666ff55ff6664ff555674546555ff65ff6555ff455564655666ff5665ff64ff556562434444ff4453ff45ff344462435544ff445354ffff344464655655ff554545ffff5554ffffffffffffffffffffffffffffffffffffffffffffffff63646564ff55646546ffff6563455555ff55545555ffff5464656565ff65655655ff56ff63545545ff45645554ff44ff
  0x1ff667767ff76566776ff5766ff767566ff66666666ff666676ff7777ff67777776ff767766ff6566ff66666666ff67665665ff66ff66556664ff56666566ff67ff66566565ff5666667666ffff67667765ff6677666676ffff66567665ff5667ffffffffffffffffffffffffffffffffffffffffffffffff66667666ffff566655ff566655656666ffff556674ff566676767667ff67ff6775ff666675767667ff67ff7676ff666665666666ff5666ff65ff657666667566ff6666ff65ff566665766666ff566666ffff656655556656ff554555ffff4655ffffffffffffffffffffffffffffffffffffffffffffffff66766766ff57666665ffff7756667666ff65566666ffff6666767677ff66766675ff66ff66777667ff66677676ff66ff
  0x1ff667576ff666666ff666666ff435243ff434343ff45344475ff7566ff667666ff66667654ff6354ff545454ff4555456576ff66ff555665ff6665666464ff64ff646564ff565555656665ffff656665ff666666535463ffff545454ff454555ffffffffffffffffffffffffffffffffffffffffffffffff54656465ffff5556ff55566564546354ffff5454ff56455565656465ff55ff65ff65555664656465ff65ff65ff56565555656465ff5666ffff65556654546354ff5464ffff564555ffffffffffffffffffffffffffffffffffffffffffffffff65546354ff545454ffff455565656566ff565656ffff656565756465ff556565ff56ff6664556465ff655555ff55ff6564656465ff656555ff5656ff64656455ff556565ff5555ff
  0x1ff655766ff565556ff645665ff667576ff666666ff76667676ff7777ff677777ff76677766ff6667ff567666ff7666677666ff67ff666677ff7657676465ff66ff565556ff555665757666ffff676667ff656776756666ffff566666ff655666ffffffffffffffffffffffffffffffffffffffffffffffff75666676ffff6667ff65667665655666ffff5556ff64566576666667ff56ff66ff66566675767676ff67ff66ff76677676666667ff5676ffff66566674656665ff5665ffff655665ffffffffffffffffffffffffffffffffffffffffffffffff75767676ff676667ffff666665555656ff455555ffff455666766666ff576666ff75ff7665666677ff666667ff65ff6675766676ff666667ff6567ff76666667ff566666ff6656ff
  0x1ff656656ff6655ff75645665ff656455ff6555ff6566566576ff7767ff6777ff7676666666ff7666ff6666ff666566666665ff56ff6655ff556456656465ff56ff6655ff66645655757666ffff7666ff66756676656565ffff6665ff65645666ffffffffffffffffffffffffffffffffffffffffffffffff65656556ffff55ff5564666564556556ffff55ff6564556576766667ff67ffff7675666675667676ff66ffff76766665ffffffffffffffffffffffffffffffffffffffffffffffff64656566ff6665ffff65566555545545ff5544ffff53455475766566ff6656ff76ff666665656656ff5655ff64ff556565666666ff6666ff6675ff7655656556ff6655ff6564ff6576766657ff6777ff766667ff65666666ff5666ff656565ff
  0x1ff655666ff6655ff65645665ff546354ff5554ff4656455564ff6556ff5665ff6555556664ff6465ff6565ff555556565565ff66ff6665ff746556655243ff44ff4443ff45353444645565ffff6665ff65555665535454ffff5554ff54444555ffffffffffffffffffffffffffffffffffffffffffffffff64655566ffff55ff5554566553545455ffff55ff5444455564656556ff56ffff6455555664656565ff66ffff65555665ffffffffffffffffffffffffffffffffffffffffffffffff63546555ff5554ffff45455555544655ff5544ffff53455474656465ff6655ff55ff565645545655ff4554ff53ff445564656565ff5665ff5555ff5654555566ff6555ff6554ff6553545455ff5554ff544445ff64656556ff5665ff645555ff
  0x1ff767666ff67ff6676666665ff666566ff56ff666566556565ff6667ff56ff676666656766ff6566ff66ff76656666666576ff66ff66ff66657666656455ff56ff55ff6555554555767767ffff66ff7776767676656666ffff56ff6666665565ffffffffffffffffffffffffffffffffffffffffffffffff76766666ffffff666665667565666666ffffff6665665665ffffffffffffffffffffffffffffffffffffffffffffffff65766676ff56ffff6566657665666666ff56ffff6666556665666666ff66ff76ff66556666656555ff56ff55ff65556476767667ff67ff7776ff667654655655ff45ff5655ff546566766666ff56ff676676ff7666666666ff66ff667665ff6575767667ff67ff66766666ff65766666ff56ff66656655ff
  0x1ff656666ff56ff5664645555ff546354ff54ff545656454575ff7667ff66ff666666666664ff6465ff65ff65555556566565ff66ff66ff66646456566243ff44ff44ff4445453434756666ffff66ff6665656666635454ffff55ff5554544545ffffffffffffffffffffffffffffffffffffffffffffffff64656556ffffff565564565563545455ffffff5554544545ffffffffffffffffffffffffffffffffffffffffffffffff64656556ff56ffff6455555663545455ff55ffff5454454563545455ff55ff55ff55454555545655ff55ff45ff53454463545455ff55ff5555ff454555545655ff45ff5553ff444564656565ff56ff665565ff5654556556ff65ff566564ff5564656565ff66ff56655556ff54556556ff56ff65646555ff
  0x1ff655666ffff555666645565ff656465ffff55555566556576ff6676ffff66666665766666ff6576ffff6666666566666576ff66ffff6666657566766455ff66ffff545566545555656555ffffff555655645665656555ffffff555665645565ffffffffffffffffffffffffffffffffffffffffffffffffffffffffffffffffffffffffffffffffffffffffffffffff66666666ffffff676565656675666666ffffff667676666566666676ffff66ff6565656664555565ffff55ff6554556565666676ffff6566ff65656655544555ffff4445ff53455475666566ffff556666ff666655555665ffff555654ff546566666666ffff66666675ff7655655565ffff55566564ff6565665666ffff6656666566ff66666666ffff6566656565ff
  0x1ff766666ffff666675756676ff546354ffff54544555455575ff6566ffff76666666667664ff6465ffff6565555556566566ff76ffff6666756567766354ff54ffff646455554555656675ffffff767665666676535454ffffff545554444555ffffffffffffffffffffffffffffffffffffffffffffffffffffffffffffffffffffffffffffffffffffffffffffffff65766566ffffff666566666664656465ffffff655565566665767566ffff66ff6565666664656465ffff65ff5555566664656465ffff6565ff56566666655555ffff5555ff64566575757575ffff666666ff666655656565ffff655564ff556665756475ffff65655565ff6664556566ffff65666555ff6564656565ffff6566655556ff64666556ffff6566655565ff
  1
  1
  0x1ff6566ffff56555676645665ff5564ffff5555556556556575ff76ffff6666666676667565ff65ffff666566666566667666ffffff676666657566766344ffffff55545455544454ffffffffffffffffffffffffffffffffffffffffffffffffffffffffffffffffffffffffffffffffffffffffffffffff646565ffffff555555645565645565ffffff555565645565766676ffff66ff6665656665745665ffff66ff6565655665656565ffff5655ff55645665645565ffff5655ff65645565645565ffff666565ff655565555455ffff454445ff534554756675ffff66566676ff6566655566ffff56555564ff5565667576ffff6766666675ff75545565ffff5555555564ff65756666ffff576657766666ff656665ffff666556656565ff
  0x1ff7666ffff66666675756666ff6565ffff6465645656565675ff66ffff6676767666667765ff66ffff757565665667676576ffffff766666656567666465ffffff65646555555656ffffffffffffffffffffffffffffffffffffffffffffffffffffffffffffffffffffffffffffffffffffffffffffffff756666ffffff666666656676646565ffffff656565555666657666ffff66ff7675666667646565ffff65ff6565655655667666ffff6676ff75666666535454ffff5554ff54444555746565ffff656566ff565666656566ffff655555ff645665646565ffff66556565ff5656566556ffff55656564ff5566757566ffff6576766666ff66656676ffff7666667665ff76646565ffff666555655556ff657666ffff667666756666ff
  0x1ff54ff55ff55444566534554ff65ff65ff6556556665666565ffff66ff6666566665666655ffff65ff65555555645555ffffffffffffffffffffffffffffffffffffffffffffffff6666ffffff666656666566765454ffffff55444554534554ffffffffffffffffffffffffffffffffffffffffffffffff5554ff55ffff4445455345545554ff55ffff4445655345546565ff66ff56ff56666455556565ff65ff66ff65656555646565ff66ff5656ff566455655554ff55ff5564ff556345555565ff66ff655556ff6456654443ff44ff443334ff4234436665ff66ff56466666ff55566665ff65ff55555565ff65655665ff65ff5655565664ff654554ff65ff5444455553ff546665ff66ff666646655556ff5565ff55ff555555656455ff
  0x1ff76ff77ff67666776756676ff55ff55ff5455645656465675ffff67ff6676666666667675ffff76ff65757556566766ffffffffffffffffffffffffffffffffffffffffffffffff7566ffffff666666666566766465ffffff65656565555666ffffffffffffffffffffffffffffffffffffffffffffffff6576ff76ffff6666656566766354ff55ffff5455554545556576ff67ff66ff66756666677575ff76ff66ff65666666666566ff67ff6676ff756666766465ff65ff6565ff655556666354ff55ff555465ff4645556665ff66ff565556ff6456657566ff66ff75667666ff57665665ff56ff56656664ff55667475ff65ff6665755656ff666566ff76ff6666666665ff766465ff66ff656566655556ff6576ff67ff667666656666ff
  0x1ffff7666ff67666676756666ffff6455ff55656565565565ffffffffffffffffffffffffffffffffffffffffffffffff75ffff66ff6666767576666663ffff45ff4554545555445475ff66ffff6676766676657664ff55ffff55655655655565ffffffffffffffffffffffffffffffffffffffffffffffff75ff6666ffff65666665656674ff6556ffff65556565556575ff6666ff56ff666566656674ff6556ff56ff656565556665ff6666ff5666ff6565656664ff5555ff5665ff6565556574ff6556ff566565ff66556565ff6555ff565555ff64555575ff6566ff66666676ff666564ff5655ff45555554ff545575ff6666ff5766666676ff7665ff7566ff6665666665ff6575ff6666ff666666756666ff64ff6556ff556565556555ff
  0x1ffff6677ff77756676666767ffff6566ff65746556565656ffffffffffffffffffffffffffffffffffffffffffffffff66ffff77ff7775667666676764ffff55ff5563545646454576ff76ffff7776777766777765ff66ffff65746556565656ffffffffffffffffffffffffffffffffffffffffffffffff76ff6666ffff65666665666665ff6566ffff74656656565666ff7676ff67ff767667665775ff7576ff66ff756666665666ff6777ff6775ff6656666764ff6565ff6664ff6555565675ff6566ff667465ff56565665ff5666ff666455ff55565675ff7666ff66646666ff565655ff6666ff56746565ff555675ff7576ff6675666666ff6766ff6677ff7665667665ff6665ff6576ff767565665667ff66ff7676ff667565666666ff
  0x1ffffffffffffffffffffffffffffffffffffffffffffffffffff6666ff56766765666566ffff5555ff55656554655555ff54ff55ff55545563564555ff64ff55ff56555564655565ff6556ffff56656664565566ff5455ffff45545553544455ffffffffffffffffffffffffffffffffffffffffffffffffff656666ffff555664555565ff545655ffff545563554555ff545555ff45ff5553554445ff656566ff56ff6564655565ff545555ff4555ff53454455ff545655ff4564ff53554455ff655655ff455556ff665465ff656665ff556565ff656566ff656666ff56666664ff5556ff434544ff34434442ff3344ff655655ff4665565466ff66ff555665ff5555556465ff55ff656666ff566656645555ffff545555ff455554535544ff
  0x1ffffffffffffffffffffffffffffffffffffffffffffffffffff7667ff76777767766677ffff6566ff66767656665757ff77ff77ff67777776766677ff44ff45ff54545545563545ff6776ffff76777766766776ff5555ffff65656556664656ffffffffffffffffffffffffffffffffffffffffffffffffff666667ffff666766755666ff556455ffff655656664656ff777667ff66ff7776766677ff667566ff66ff7666665766ff667667ff6676ff66765667ff556555ff5565ff56654656ff556556ff656566ff664656ff766667ff666667ff756666ff556455ff65656556ff4656ff666666ff56666665ff6566ff767575ff6676765666ff67ff566667ff6666666675ff66ff667566ff667666666657ffff666657ff666666667656ff)
 (mkT
  0x1ff6676ff66666666757676ffff6564ff55556555656565ff65ff76ff66667666756676ff65ff75ff65666566657666ff7677ffff67776777767677ff6354ffff54545454545554ffffffffffffffffffffffffffffffffffffffffffffffffff667666ffff666666656565ff746575ffff656665656575ff556565ff55ff6656645565ff646565ff55ff6555646565ff656565ff5555ff55646565ff646565ff5555ff55646565ff656676ff666666ff656566ff656565ff555565ff646565ff656676ff56666666ff7666ff656565ff55555555ff6465ff756676ff6666666675ff76ff545455ff4444544553ff54ff757666ff665666566676ffff657666ff655666666565ffffffffffffffffffffffffffffffffffffffffffffffffffff
  0x1ff6676ff66676667757676ffff6675ff66656665666666ff65ff76ff66666666756676ff76ff76ff66767666767677ff7677ffff77776767767677ff6566ffff65666566656666ffffffffffffffffffffffffffffffffffffffffffffffffff766676ffff676667757676ff756675ffff767666666676ff667666ff66ff6667656576ff656676ff66ff6666756675ff556565ff5556ff56646565ff656675ff6666ff76657676ff666676ff666667ff656675ff646565ff656565ff655565ff667776ff66667776ff7677ff666666ff66665656ff6576ff656676ff6666666775ff76ff666666ff5656656665ff76ff767776ff676767677676ffff767766ff666666667666ffffffffffffffffffffffffffffffffffffffffffffffffffff
  0x1ff7676ff676777677676ff77ff6564ff555565556566ff6576ff76ff676677677676ff7775ff75ff666666667575ff767777ffff666767677676ff776465ffff555565556565ff66ffffffffffffffffffffffffffffffffffffffffffffffff666675ffff6666667575ff66756675ffff6666667575ff76667666ff66ff66666565ff66756665ff66ff66667575ff76666675ff6656ff666565ff66657675ff6666ff667576ff76667675ff665666ff6566ff66657675ff665666ff6575ff76767676ff67676767ff76ff77656665ff55565555ff64ff65767676ff6667677776ffff77556565ff5545555554ffff65ffffffffffffffffffffffffffffffffffffffffffffffff667676ff675776676676ffff657675ff665666666565ffff
  0x1ff6677ff576676667676ff67ff6675ff566565656666ff6666ff76ff666666767666ff7776ff76ff666666667676ff777777ffff677776677676ff766555ffff556564656656ff56ffffffffffffffffffffffffffffffffffffffffffffffff666666ffff6666677675ff76766775ffff7675666666ff66666666ff57ff66666665ff76656676ff56ff65666566ff66666676ff5666ff667566ff66666675ff6666ff766676ff66666676ff566666ff7566ff66656676ff566665ff7666ff76666676ff57666666ff76ff77666666ff56666556ff65ff66766676ff6676757776ffff66555566ff4655555565ffff66ffffffffffffffffffffffffffffffffffffffffffffffff767776ff677777767666ffff666676ff555665666666ffff
  0x1ff6676ff5566666765ff6666ff6564ff5565646566ff656565ff76ff6666656665ff766664ff75ff6465656555ff55667576ffff6667766775ff76665253ffff4343534544ff4354ffffffffffffffffffffffffffffffffffffffffffffffff756566ffff66666655ff6566736565ffff64646555ff6465646556ff55ff655664ff5566636465ff54ff645555ff5464546565ff5556ff5664ff6556656465ff5555ff6665ff6475646556ff555665ff64ff6565636454ff545464ff55ff5465646566ff55556566ffff5565646566ff55555556ffff6565ffffffffffffffffffffffffffffffffffffffffffffffff646566ff5556655656ffff75646565ff6455656565ffff65756666ff6666666765ff76ff636465ff5454545454ff54ff
  0x1ff7776ff7777776776ff7677ff7675ff6665666666ff666666ff76ff6667766775ff767677ff76ff6676667776ff76776676ffff6666666775ff76776566ffff6566666665ff6666ffffffffffffffffffffffffffffffffffffffffffffffff667677ffff66666765ff6576667676ffff66666675ff7566556566ff55ff665664ff6566667675ff66ff666765ff7676666666ff6666ff6765ff7566657676ff6666ff6675ff6666556566ff555666ff64ff6565566566ff555665ff64ff6566676676ff57676667ffff6777666666ff55555556ffff6666ffffffffffffffffffffffffffffffffffffffffffffffff677676ff6767765766ffff76667676ff6656666766ffff77667676ff6666766775ff76ff667776ff6666666675ff76ff
  0x1ff6675ff66667666ff767667ff5453ff44445444ff55545466ff75ff66667666ff66766665ff64ff65555555ff6665656766ffff56656666ff7666766465ffff55556565ff666565ffffffffffffffffffffffffffffffffffffffffffffffff666665ffff666666ff656566655564ffff556555ff666565566564ff55ff6655ff656566656564ff55ff6555ff666565656564ff5555ff55ff656556556564ff6555ff55ff666565566564ff555666ffff656565656564ff555565ffff666565ffffffffffffffffffffffffffffffffffffffffffffffff666675ff66656666ffff6666565564ff45555555ffff5565767665ff66566656ff66ff76656664ff65556565ff65ff65666675ff56666666ff6666ff656564ff55555555ff6565ff
  0x1ff6667ff65566657ff767666ff6675ff66666666ff76666776ff77ff67677667ff76777777ff76ff66667666ff7677777677ffff66677767ff7677777566ffff65566556ff666666ffffffffffffffffffffffffffffffffffffffffffffffff767666ffff666667ff756666767666ffff666666ff757676666666ff65ff6656ff657666756666ff65ff6656ff657666766666ff6556ff56ff657666767676ff6666ff66ff767676766666ff655666ffff657665756666ff655666ffff657667ffffffffffffffffffffffffffffffffffffffffffffffff767777ff66676667ffff7777655556ff54455545ffff6556766666ff67566657ff76ff76766676ff66576666ff66ff77767777ff76677766ff7677ff666666ff55565656ff6666ff
  0x1ff6676ff666666ff66666565ff6665ff666666ff6565756566ff76ff666767ff7566766666ff76ff666676ff757576766666ffff666666ff656576656566ffff656666ff65656565ffffffffffffffffffffffffffffffffffffffffffffffff666666ffff6666ff65656665757676ffff7666ff76757566666666ff66ff66ff65656565656666ff66ff66ff65656565666666ff6667ffff65757566667676ff6666ffff75767675ffffffffffffffffffffffffffffffffffffffffffffffff667776ff676767ffff767676555555ff556555ffff546554757676ff667666ff76ff7666555565ff555655ff54ff6465666767ff676767ff6676ff76666666ff666666ff7565ff65666676ff666777ff756676ff556565ff555656ff646565ff
  0x1ff6576ff656666ff65666667ff6564ff656565ff5655656564ff65ff656565ff6555656665ff65ff656666ff656566667676ffff667777ff767676765354ffff545454ff54455455ffffffffffffffffffffffffffffffffffffffffffffffff757566ffff6665ff65656666646665ffff6565ff65556566657666ff66ff66ff65656666646565ff65ff55ff65556565646565ff5555ffff64556556656575ff6666ffff65666576ffffffffffffffffffffffffffffffffffffffffffffffff757675ff666666ffff666676656556ff556555ffff646565756576ff666666ff75ff7566556565ff555565ff64ff5566657666ff666666ff6565ff76646565ff656665ff5555ff65646565ff656565ff655565ff645565ff555555ff645565ff
  0x1ff6676ff6666ff6775666566ff6564ff5555ff555565656655ff65ff5556ff566465655666ff75ff6566ff66657666766676ffff6666ff67656666765465ffff5455ff5554555566ffffffffffffffffffffffffffffffffffffffffffffffff667666ffff66ff6775656566666675ffff66ff6675767576556665ff55ffff5664556566556565ff55ffff5664656566ffffffffffffffffffffffffffffffffffffffffffffffff556665ff5556ffff64556565556565ff5556ffff64656566566676ff5667ff67ff766677556555ff5556ff56ff646565667666ff6666ff6775ff7667445455ff4445ff4553ff5465666666ff6656ff576576ff76666666ff6656ff666565ff76657666ff6666ff66756676ff555665ff5555ff55646565ff
  0x1ff6566ff5556ff5664766556ff5564ff5555ff555665655575ff76ff6666ff667666756665ff65ff6566ff66656666667666ffff6666ff67756576666344ffff5454ff5554555444ffffffffffffffffffffffffffffffffffffffffffffffff766676ffff66ff6665656566745665ffff65ff6665656556656565ff55ffff5664556556645565ff55ffff5664656555ffffffffffffffffffffffffffffffffffffffffffffffff646565ff5555ffff64556555645565ff5555ffff64656555756675ff5666ff66ff766665655566ff5555ff56ff646555645565ff6565ff6665ff6555555455ff4445ff4553ff5445756666ff6657ff576676ff66656665ff6556ff666565ff65667576ff6666ff67756675ff545565ff5555ff55645565ff
  0x1ff6667ff66ff666765657566ff6665ff66ff66666565757666ff66ff66ff66676565767666ff66ff66ff6666757576767676ffff66ff6767667576766566ffff66ff656665656566ffffffffffffffffffffffffffffffffffffffffffffffff666666ffffff666775656566666666ffffff666776757576ffffffffffffffffffffffffffffffffffffffffffffffff666666ff66ffff6765757566667676ff66ffff6775767676666666ff66ff66ff65667576656666ff66ff66ff65657576667776ff67ff6667ff767677656556ff55ff5556ff646565667776ff67ff667776ff7676655556ff55ff555654ff6465766766ff77ff76676676ff77556555ff66ff55566564ff65667666ff77ff6667667576ff556565ff55ff6656646565ff
  0x1ff6676ff66ff766775667666ff5564ff55ff65555555556565ff75ff66ff66666566766665ff65ff66ff6666656566666676ffff66ff7667756666765455ffff55ff655664566465ffffffffffffffffffffffffffffffffffffffffffffffff666675ffffff666665656666656675ffffff666665666576ffffffffffffffffffffffffffffffffffffffffffffffff556565ff55ffff5664556556666675ff66ffff6665666676556565ff55ff66ff64556565556565ff65ff65ff64656566666675ff56ff6666ff666676656556ff55ff5556ff646565666676ff66ff666675ff6566455455ff44ff544553ff5455667665ff66ff66566576ff76656675ff66ff66666565ff76556565ff55ff6556646565ff546565ff55ff5555645565ff
  0x1ff5566ffff56655664656556ff5564ffff5565556565656666ff76ffff6676677566656676ff65ffff666566656665667666ffffff666667756566666455ffffff55645564556556ffffffffffffffffffffffffffffffffffffffffffffffffffffffffffffffffffffffffffffffffffffffffffffffff655565ffffff655664556566655565ffffff655664656566655565ffff56ff5664656556666675ffff66ff6675767676655565ffff5665ff64556565655565ffff5665ff64656566665665ffff666666ff766667655565ffff565556ff646565756676ffff66666775ff7667544455ffff45544553ff5455666767ffff5766576676ff76666666ffff5666666565ff66766676ffff677667756676ff555565ffff555555646565ff
  0x1ff7576ffff76767675766666ff5564ffff5565555566556575ff75ffff6666666566766665ff75ffff666666656566667676ffffff776667667566765554ffffff65656665666455ffffffffffffffffffffffffffffffffffffffffffffffffffffffffffffffffffffffffffffffffffffffffffffffff667575ffffff666665656666656576ffffff666675656566657575ffff66ff6665656566666575ffff66ff6665766566657575ffff6666ff75666566656575ffff6666ff65656566766675ffff666666ff766676656565ffff665556ff645565666575ffff76666666ff7566556465ffff55555564ff5455666675ffff6676666576ff76756665ffff6666666665ff76667676ffff667667767675ff646565ffff656566655565ff
  1
  1
  0x1ff66ffff6666666766756666ff65ffff555655566564656566ffffff766666576665666665ffffff5566555665646565ffffffffffffffffffffffffffffffffffffffffffffffffffffffffffffffffffffffffffffffffffffffffffffffff6565ffffff555556556455556665ffffff655556666475655565ffff55ff5556556455656565ffff55ff5556656465656565ffff5556ff56656465556665ffff6666ff66657575756565ffff555656ff556465656565ffff555565ff656465667676ffff66666667ff7566665454ffff44444445ff5354546666ffff5666566776ff66666565ffff5555555664ff65656676ffff665666576665ff766565ffff555555566564ff657676ffff66666657666576ff6565ffff55555555656465ff
  0x1ff76ffff6667766675777667ff66ffff655565556666666675ffffff767676767666767676ffffff6566766666666677ffffffffffffffffffffffffffffffffffffffffffffffffffffffffffffffffffffffffffffffffffffffffffffffff7677ffffff777677667676776466ffffff656566665675667576ffff66ff7666766666675465ffff55ff6556645665656676ffff6666ff66756666666675ffff6666ff66756675667576ffff666676ff766676666566ffff666676ff656675766566ffff56666666ff6766767666ffff66666666ff7576666676ffff6666776775ff76676666ffff5665656565ff66666576ffff665776666666ff766676ffff756666667665ff766576ffff66667667756676ff7576ffff66666666756676ff
  0x1ffff76ff6667666775767667ffff64ff5555555565656565ffffffffffffffffffffffffffffffffffffffffffffffff76ffffff666666677566767763ffffff5454545454555455ffffffffffffffffffffffffffffffffffffffffffffffff65ff65ffff5655566465655674ff75ffff6565656565756665ff65ff55ff55566455656664ff65ff55ff55556465656565ff65ff5556ff566465655564ff75ff6565ff656565657665ff65ff555655ff6455656564ff65ff555555ff6465656565ff76ff56665666ff76667665ff65ff55555555ff64656575ff76ff6666666675ff766654ff55ff4445444553ff546575ff66ff665766566676ff7675ff75ff555665666565ff6675ff76ff66666667756676ff64ff65ff55555555646565ff
  0x1ffff76ff6676757676667666ffff75ff6666756666667666ffffffffffffffffffffffffffffffffffffffffffffffff77ffffff777776677666777665ffffff5565646565566555ffffffffffffffffffffffffffffffffffffffffffffffff77ff77ffff7776677666767666ff75ffff6666666576667666ff66ff66ff76666556766666ff76ff66ff75667566766666ff76ff6666ff667566765766ff75ff6666ff666576766666ff66ff666675ff6556766665ff66ff666665ff7565766667ff76ff67677667ff77777666ff66ff66666556ff65666576ff76ff6676657776ff766655ff66ff5555645664ff655676ff76ff676776677676ff7776ff76ff666776677666ff7666ff76ff76767666766776ff66ff76ff65656565656666ff
  0x1ffffffffffffffffffffffffffffffffffffffffffffffffffff66ff6666665765666666ffff65ff5555655564656565ff65ffff5556665664566566ff64ffff4445544553555455ffffffffffffffffffffffffffffffffffffffffffffffffff6566ffff55555664565465ff6565ffff55655564656465ff6455ff44ff554553455455ff6455ff44ff544553555455ff5455ff4445ff4553545445ff6565ff5555ff5564656565ff6455ff444555ff53455454ff6455ff444554ff53555455ff6566ff46565556ff665566ff6565ff46556555ff555566ff6566ff5556665664ff6556ff5344ff3334433442ff4354ff7556ff564655465565ff65ff6565ff554555555456ff65ff6566ff55566656645665ffff6455ff44444544536554ff
  0x1ffffffffffffffffffffffffffffffffffffffffffffffffffff76ff7676767776767677ffff76ff7576667666766667ff77ffff6676777776767777ff55ffff6454555655665555ffffffffffffffffffffffffffffffffffffffffffffffffff6676ffff67766765766667ff6675ffff65666666667666ff6675ff66ff766665666667ff6665ff65ff666665756665ff6676ff6666ff6675667667ff6675ff6666ff6666766676ff6675ff656676ff65666666ff6665ff656566ff65766666ff6776ff66767677ff766776ff6666ff65666666ff656666ff6676ff6565666666ff6666ff5566ff5556655664ff6556ff7776ff766777676676ff76ff6666ff656666666675ff66ff7776ff76767677767676ffff6676ff65656565656666ff)
 (mkT
  0x1ff7676ff66776666767567ffff7565ff65646574565656ff75ff76ff76767676667677ff75ff76ff75757575666666ff6676ffff66666676756666ff6465ffff64656565555556ffffffffffffffffffffffffffffffffffffffffffffffffff657666ffff666666667566ff647565ffff656565656555ff667666ff76ff6676667566ff536454ff54ff5454445455ff757676ff6666ff76656676ff647565ff6565ff65556566ff757666ff666666ff656676ff646465ff656565ff556555ff646565ff55666565ff6556ff566555ff65655565ff6466ff757675ff6676667566ff67ff656565ff5555656564ff65ff647565ff655565655565ffff657666ff767666766675ffffffffffffffffffffffffffffffffffffffffffffffffffff
  0x1ff7777ff67776767767777ffff6676ff66666665766676ff76ff77ff77777676767787ff77ff77ff67776766777787ff7677ffff67776766767777ff7576ffff66666666666676ffffffffffffffffffffffffffffffffffffffffffffffffff767767ffff676666767677ff767777ffff767666767776ff767777ff77ff6767677676ff657666ff76ff6556656676ff667676ff6666ff66756676ff767777ff7776ff66767777ff767777ff676777ff766787ff767777ff666776ff767677ff667777ff67777666ff7777ff666666ff66565656ff6677ff767777ff7777666676ff87ff666777ff5766666676ff76ff768777ff776776677677ffff767767ff676766667777ffffffffffffffffffffffffffffffffffffffffffffffffffff
  0x1ff7676ff667666767676ff77ff6565ff646465645656ff5676ff76ff767777767776ff7775ff75ff656565656666ff677676ffff766677767676ff777565ffff746565655666ff56ffffffffffffffffffffffffffffffffffffffffffffffff757666ffff6666766666ff66657564ffff6565656555ff66767776ff76ff67766676ff77647565ff65ff65655565ff66767676ff7666ff767667ff77757675ff7575ff756666ff66767776ff766667ff7677ff67647565ff656565ff5555ff66757575ff65667676ff66ff66666666ff65655665ff65ff66757675ff7675667566ffff67667666ff6555666565ffff66ffffffffffffffffffffffffffffffffffffffffffffffff758676ff766676656666ffff757676ff666676766666ffff
  0x1ff7777ff677777777776ff77ff7675ff676666666666ff6676ff77ff777777777776ff8777ff76ff676777777776ff777677ffff677777767776ff776576ffff666666666665ff76ffffffffffffffffffffffffffffffffffffffffffffffff767666ffff6666677675ff76666666ffff6666666675ff76556555ff66ff55565564ff65756666ff66ff65766666ff66777777ff6667ff777676ff77767776ff7776ff767676ff76667666ff666776ff7566ff76667666ff666766ff6675ff76666666ff57776677ff76ff77767666ff66666667ff75ff76767777ff6777667677ffff77666667ff5656666666ffff66ffffffffffffffffffffffffffffffffffffffffffffffff768767ff777777667776ffff777777ff676776777676ffff
  0x1ff7577ff5666656666ff6676ff6565ff6565647466ff565674ff76ff6576657656ff667574ff66ff6465656556ff56567576ffff6667666665ff66766354ffff5354546446ff4545ffffffffffffffffffffffffffffffffffffffffffffffff646566ffff66656656ff6665636466ffff54646555ff4555756667ff75ff666666ff6666525355ff43ff535435ff4454657567ff6566ff6665ff6666757475ff7565ff7556ff5666747566ff656665ff55ff6566636465ff546564ff46ff5655636466ff64556465ffff4555656656ff66665656ffff6665ffffffffffffffffffffffffffffffffffffffffffffffff636465ff5454646545ffff65746566ff6566656656ffff65747566ff6565756556ff66ff646566ff5566656655ff65ff
  0x1ff7777ff7677677676ff6777ff7665ff6666667566ff766776ff77ff7777777676ff777777ff76ff7676677676ff76776676ffff6667667675ff66776576ffff7667666666ff7776ffffffffffffffffffffffffffffffffffffffffffffffff667666ffff77666665ff6666667666ffff66667675ff6577667777ff76ff677666ff6677556556ff65ff556664ff6666777776ff7777ff7676ff7777667676ff7776ff7676ff7677667666ff666667ff75ff7666667666ff666666ff75ff7677666667ff57676677ffff6677566666ff65655665ffff6766ffffffffffffffffffffffffffffffffffffffffffffffff667666ff6656667665ffff77667777ff6676676666ffff77667666ff6666667675ff76ff777776ff6766777676ff77ff
  0x1ff7675ff77666666ff666776ff5454ff54535463ff45554576ff75ff76757675ff67766665ff65ff65646574ff5666566666ffff56656675ff6666667665ffff65646574ff566656ffffffffffffffffffffffffffffffffffffffffffffffff677665ffff656665ff666666656564ffff646564ff565556667666ff66ff6675ff666666656463ff54ff5454ff465555667665ff6665ff75ff667667656564ff6564ff64ff565656667675ff666576ffff667666756564ff656465ffff566656ffffffffffffffffffffffffffffffffffffffffffffffff656564ff65656564ffff5656677665ff66666665ffff6666657564ff65546565ff56ff66666665ff76656675ff66ff66757565ff65656564ff5666ff666665ff66657675ff6676ff
  0x1ff6667ff76676666ff756776ff7675ff66666666ff66677666ff67ff67776667ff75677677ff76ff66667676ff7677777677ffff76677776ff7667776576ffff66676666ff656676ffffffffffffffffffffffffffffffffffffffffffffffff566556ffff665556ff645665767666ffff666666ff756676767666ff66ff6667ff757776556556ff65ff5556ff646665766767ff6666ff67ff656776777666ff7776ff66ff767776767767ff666677ffff767666667666ff666666ffff756776ffffffffffffffffffffffffffffffffffffffffffffffff767777ff67776777ffff7776666666ff55556665ffff6666667666ff76566666ff75ff76767666ff66666667ff75ff76667666ff76667666ff7577ff767777ff66666677ff7677ff
  0x1ff7676ff767666ff76757766ff7675ff766566ff6666666675ff76ff767676ff6676777666ff76ff766666ff767577666676ffff777667ff667567666576ffff667666ff66757666ffffffffffffffffffffffffffffffffffffffffffffffff657666ffff7666ff66756666657676ffff7666ff76756666667676ff77ff67ff66756766546565ff65ff65ff55646665767677ff6677ffff76767777657676ff7676ffff66757766ffffffffffffffffffffffffffffffffffffffffffffffff657676ff667776ffff756776566565ff656556ffff646655767776ff777667ff76ff7776767666ff666666ff75ff7666657676ff766676ff6675ff76656666ff667666ff6675ff66667676ff766667ff767577ff657676ff666666ff656576ff
  0x1ff7666ff667766ff76656776ff6665ff756565ff6656565675ff76ff767766ff6666777775ff76ff756666ff666666676676ffff666776ff757666766465ffff646565ff55555656ffffffffffffffffffffffffffffffffffffffffffffffff657666ffff7766ff66656666647565ffff6565ff65555566767777ff76ff67ff67767776536454ff54ff54ff44445555757676ff6666ffff65667667757575ff7676ffff66666666ffffffffffffffffffffffffffffffffffffffffffffffff646565ff556665ffff555666666666ff657656ffff656665757575ff667666ff66ff6667667666ff656666ff65ff6666647565ff655565ff5555ff66757676ff767666ff6666ff76647565ff656665ff555566ff757676ff666666ff656676ff
  0x1ff7777ff6777ff7776667776ff7665ff6665ff766566656666ff76ff6666ff777566766777ff76ff7666ff76767776766676ffff6666ff76656666766566ffff6566ff7665666666ffffffffffffffffffffffffffffffffffffffffffffffff767677ffff77ff7776767776667666ffff66ff7676766576777777ff77ffff7776767676656555ff65ffff6654656665ffffffffffffffffffffffffffffffffffffffffffffffff667666ff6666ffff75667666667666ff6666ffff65767676566666ff5667ff77ff766676667666ff6666ff66ff656665777766ff6777ff7676ff7776556566ff5555ff6564ff6566667666ff7656ff776576ff76766666ff6676ff677675ff76768777ff7777ff76767787ff667676ff6666ff76657676ff
  0x1ff7666ff6666ff6675756666ff6565ff6564ff645656565675ff66ff7676ff666676776665ff66ff7565ff75566667676576ffff6666ff76656566676465ffff6465ff6555555656ffffffffffffffffffffffffffffffffffffffffffffffff657666ffff76ff6666756766646565ffff65ff6565655556667666ff76ffff6666756666535454ff54ffff5544545545ffffffffffffffffffffffffffffffffffffffffffffffff756666ff6666ffff65667666646565ff6565ffff55656656646565ff5565ff66ff655656566556ff6565ff55ff646655746565ff6566ff6556ff6656656566ff5555ff6564ff6556646565ff6555ff665565ff56657666ff7666ff666675ff66757566ff7676ff65666666ff656676ff6666ff76657676ff
  0x1ff6666ff76ff666666756676ff6564ff65ff55555556666566ff66ff76ff66666675677666ff65ff66ff6666666566766676ffff66ff6666667576765465ffff65ff555656546665ffffffffffffffffffffffffffffffffffffffffffffffff656555ffffff555655645665667665ffffff666666657576ffffffffffffffffffffffffffffffffffffffffffffffff667666ff66ffff6665756666666665ff76ffff6666657675667666ff66ff66ff65657676556555ff65ff55ff65646665767666ff67ff6666ff756676455445ff54ff4445ff535554666666ff66ff566676ff7766556556ff65ff555664ff6565556555ff65ff55566564ff65656555ff66ff55565564ff65667656ff76ff6656666576ff667666ff66ff6666657576ff
  0x1ff7676ff77ff777676766677ff6565ff65ff65745656465675ff76ff76ff76766666667676ff76ff75ff7675666657677576ffff76ff7676666667767576ffff75ff767567675767ffffffffffffffffffffffffffffffffffffffffffffffff767776ffffff667667766777757575ffffff767566665666ffffffffffffffffffffffffffffffffffffffffffffffff767776ff76ffff7676676777757675ff76ffff6566665767757676ff76ff76ff66666667757675ff66ff66ff66665767757675ff66ff7675ff665767667666ff76ff6675ff665766757675ff76ff767566ff6766667666ff66ff767566ff5667647564ff65ff65655555ff66767666ff76ff67767676ff77647565ff65ff6575555566ff767776ff76ff7676767767ff
  0x1ff6676ffff66767775666666ff6665ffff6566657666666677ff77ffff7777777676777776ff66ffff666676757665667666ffffff667676756666676566ffffff66666665656666ffffffffffffffffffffffffffffffffffffffffffffffffffffffffffffffffffffffffffffffffffffffffffffffff767666ffffff666766756676656555ffffff656664656666766676ffff66ff6675666666767676ffff66ff7676767676766666ffff6666ff75667666666666ffff6666ff75757666665666ffff666666ff756676666666ffff666666ff756666766776ffff77667676ff7777655566ffff55656564ff6555766666ffff5676776576ff77556555ffff6555566564ff65767767ffff677766767677ff766676ffff667676756676ff
  0x1ff8666ffff76767675766777ff6565ffff6465644656565676ff76ffff7677766676777665ff66ffff757675566667676676ffffff766666667566766565ffffff75657556565656ffffffffffffffffffffffffffffffffffffffffffffffffffffffffffffffffffffffffffffffffffffffffffffffff777676ffffff677667766777646465ffffff656555656555677676ffff76ff7666667777657565ffff75ff7556666667667676ffff7677ff66767666657565ffff6576ff56666666757574ffff656565ff565666666556ffff656665ff656666757575ffff76767567ff6666567566ffff65666565ff6666657565ffff6576755666ff67767676ffff7677766776ff76757675ffff767675666666ff667676ffff767676667776ff
  1
  1
  0x1ff65ffff6566555566645665ff66ffff666666656665666666ffffff667666666675666666ffffff6565566566656666ffffffffffffffffffffffffffffffffffffffffffffffffffffffffffffffffffffffffffffffffffffffffffffffff5565ffffff665555566455555665ffffff655555666455656666ffff66ff5665566556664554ffff54ff4445665355547666ffff6666ff66666566666565ffff6675ff65667566656676ffff666666ff666576665665ffff656565ff666466665665ffff66665556ff6456655555ffff54544554ff5455556666ffff5666566676ff66666676ffff6665656566ff66665565ffff655555565664ff656666ffff656556656665ff666676ffff66666655666577ff6676ffff66656666657566ff
  0x1ff76ffff6677767766667777ff65ffff656465745656565675ffffff666666766666767675ffffff7565767566666767ffffffffffffffffffffffffffffffffffffffffffffffffffffffffffffffffffffffffffffffffffffffffffffffff6576ffffff666666666567767475ffffff656575665656666676ffff77ff6666667576766364ffff54ff5465454555556576ffff6666ff76656676677575ffff7675ff65666667666576ffff666676ff656676766475ffff656565ff555566667475ffff65666575ff5656665665ffff65565556ff6466657576ffff7676667566ff67665665ffff5556656664ff65666475ffff656565655555ff666576ffff666666666665ff766475ffff65656565555566ff6576ffff66667676656676ff
  0x1ffff77ff6677677776767777ffff65ff6665667566666666ffffffffffffffffffffffffffffffffffffffffffffffff76ffffff666666767566667775ffffff6566667665766666ffffffffffffffffffffffffffffffffffffffffffffffff66ff76ffff6666667565666675ff66ffff6666767676657776ff77ff76ff77766676767764ff55ff55ff65665465656676ff76ff6666ff767566766675ff66ff6666ff766576657775ff66ff666666ff6566766675ff66ff666666ff6576657665ff66ff56675667ff76667666ff66ff65666666ff75766676ff76ff6776677676ff767765ff66ff5555556564ff656675ff66ff665666776576ff7765ff66ff667666666665ff7676ff77ff77777776767676ff75ff66ff66666666657666ff
  0x1ffff77ff7777767676767777ffff76ff7666757666566667ffffffffffffffffffffffffffffffffffffffffffffffff77ffffff777776767666777775ffffff7676757666666767ffffffffffffffffffffffffffffffffffffffffffffffff77ff77ffff7776677676777766ff66ffff7575755666666777ff77ff77ff66777776777765ff65ff65ff64655555665677ff76ff7767ff777676776776ff76ff7675ff756666676777ff77ff677776ff7667877776ff76ff757675ff6666676766ff75ff66767576ff66676766ff66ff76666566ff65776676ff76ff7676757567ff776766ff66ff6666756675ff766776ff76ff766675766666ff6777ff77ff777776777776ff7776ff76ff86767676776777ff77ff76ff77777676767777ff
  0x1ffffffffffffffffffffffffffffffffffffffffffffffffffff67ff6666767675777676ffff66ff6555666565666666ff75ffff5556656564565566ff75ffff5556656664666566ffffffffffffffffffffffffffffffffffffffffffffffffff7666ffff66666665666666ff7556ffff55656564665466ff7677ff66ff666665666566ff6446ff54ff545563565555ff6566ff5555ff6664566556ff7566ff6665ff6565766666ff6556ff555566ff64566555ff7556ff555565ff64666566ff6557ff46566566ff665566ff7566ff66656565ff656666ff7666ff6666666675ff6666ff6455ff4444545453ff5455ff7556ff554565665466ff66ff6666ff656666666565ff66ff7666ff66667665656676ffff7565ff55556565646665ff
  0x1ffffffffffffffffffffffffffffffffffffffffffffffffffff76ff7676777767767777ffff76ff7576767666666667ff77ffff6676777766767777ff65ffff6465656556665656ffffffffffffffffffffffffffffffffffffffffffffffffff6675ffff76666666656676ff7675ffff75767567665667ff7776ff76ff777776767777ff6564ff64ff656645555656ff7776ff7677ff7776767777ff7675ff7675ff7557676767ff7776ff767677ff66767777ff7675ff757676ff56666767ff6675ff65767676ff665767ff7666ff66666666ff756666ff7675ff7576767557ff6767ff6667ff6666666675ff6666ff7675ff756576765666ff67ff7776ff767777776676ff77ff8675ff76767676666677ffff7776ff76777776667677ff)
 (mkT
  0x1ff55ff6655565565646665ffff55ff6555556565646665ff55ffff6655566665646665ff55ffff6555556465646565ffffffffffffffffffffffffffffffffffffffffffffffffff6676ffff66666666756676ff5454ffff44445454535554ff6565ff56ff565555646555ff6564ff75ff555565646564ff6565ff6656ff5555545565ff5564ff6564ff5454635465ff5554ff554445ff54535554ff5564ff654445ff54535554ff4554ff65444555ff534554ff5554ff64444554ff536554ff5655ff7646565565ff6556ff6565ff6554556565ff6465ff6665ff665556666564ff65ff4443ff543334434342ff43ff6665ff66564665655565ffff6565ff66555555556465ffffffffffffffffffffffffffffffffffffffffffffffffffff
  0x1ff55ff6655566556646665ffff76ff6666666656656675ff55ffff6655565565646665ff66ffff6656666666756776ffffffffffffffffffffffffffffffffffffffffffffffffff6677ffff66666666756766ff5565ffff55566555646665ff6555ff66ff565556646665ff6666ff66ff666666756675ff6666ff6666ff6656656675ff5565ff6665ff6555646676ff4454ff554445ff56535554ff6666ff666666ff66757676ff5565ff56555656ff645565ff5665ff65555665ff647665ff5666ff6656676666ff7666ff6666ff6666566656ff6676ff5565ff665556666664ff65ff5555ff554555544554ff65ff6666ff76665776666577ffff6666ff66566665566566ffffffffffffffffffffffffffffffffffffffffffffffffffff
  0x1ff65ff66565666666566ff66ff65ff65555566656566ff6666ffff76566666667566ff6665ffff65555555556465ff65ffffffffffffffffffffffffffffffffffffffffffffffff6677ffff665666666577ff765565ffff554565655465ff666555ff65ff5655666465ff666665ff75ff5565657465ff656666ff6566ff66666565ff766565ff7555ff65656465ff666555ff655555ff556456ff556665ff755555ff656465ff655565ff65555555ff6455ff556565ff65555555ff6475ff656665ff6656565666ff76ff666665ff7565555555ff64ff657666ff766666666675ffff665454ff544444445453ffff54ffffffffffffffffffffffffffffffffffffffffffffffff6676ff76665666666566ffff6565ff65555555556465ffff
  0x1ff55ff66465565666566ff56ff66ff76565666666566ff7656ffff76566656667566ff6666ffff66565666656566ff66ffffffffffffffffffffffffffffffffffffffffffffffff6676ffff665666667566ff765555ffff465555666566ff666656ff66ff5656666566ff666656ff66ff6566667576ff665565ff6656ff55566455ff656666ff7666ff65667566ff665555ff654555ff666466ff556666ff665666ff666566ff665555ff66465555ff6555ff665555ff66455555ff6466ff655555ff7646675566ff66ff666666ff7756566666ff66ff766666ff665666666775ffff664444ff553544445554ffff55ffffffffffffffffffffffffffffffffffffffffffffffff6666ff77566666667566ffff5555ff66465555556566ffff
  0x1ff55ff665556656664ff6556ff65ff756666656675ff766655ffff665556566664ff655664ffff655556656564ff6565ffffffffffffffffffffffffffffffffffffffffffffffff6576ffff6666666675ff66665364ffff5455645454ff54556455ff66ff56555654ff55556465ff66ff66656565ff65666465ff6655ff555665ff65655465ff5555ff656554ff65554554ff554445ff5553ff54456565ff755556ff6564ff65765554ff55444554ff53ff54555465ff66555665ff64ff55556566ff6656666666ffff66667565ff6665566666ffff6565ffffffffffffffffffffffffffffffffffffffffffffffff6566ff666656666665ffff666465ff655555555564ffff656665ff665556656764ff65ff5454ff654445545453ff54ff
  0x1ff66ff666666666675ff6666ff66ff666666666565ff656655ffff665556656664ff656666ffff766566666665ff6566ffffffffffffffffffffffffffffffffffffffffffffffff6676ffff6657666665ff66765565ffff5555656664ff65665665ff66ff66555664ff56655665ff65ff65656574ff64556666ff6666ff666665ff75664554ff6554ff545563ff65555565ff565556ff5664ff65555665ff655555ff6564ff55664454ff65444555ff53ff54555665ff65555665ff64ff65665655ff6646565566ffff56666766ff6666565665ffff6666ffffffffffffffffffffffffffffffffffffffffffffffff5665ff765646656655ffff666666ff665666566675ffff665565ff765556656664ff65ff5566ff665556566564ff65ff
  0x1ff65ff6656566656ff766666ff64ff5445445554ff56545566ffff7666566666ff76766665ffff6556555665ff666566ffffffffffffffffffffffffffffffffffffffffffffffff6776ffff66666665ff6676665555ffff46555555ff6655656666ff66ff665656ff7566656655ff65ff556565ff6665666666ff6556ff5656ff6565656665ff6556ff5655ff6665656665ff655655ff55ff6565655665ff655555ff65ff6665656665ff65565556ffff6565656665ff65565556ffff666565ffffffffffffffffffffffffffffffffffffffffffffffff6776ff6666566665ffff76665554ff5545454545ffff54546665ff6656566666ff66ff666665ff6556665655ff65ff656666ff6656666656ff6666ff6665ff6556555655ff6565ff
  0x1ff55ff6654465565ff666556ff66ff6656565666ff76666665ffff7766566566ff66666666ffff6655556565ff666666ffffffffffffffffffffffffffffffffffffffffffffffff6666ffff56566666ff6676766555ffff54455565ff6665566665ff66ff565566ff6555656665ff76ff656675ff6665666666ff6656ff5666ff5666666555ff6564ff5565ff6666566555ff665445ff65ff5665556666ff766555ff75ff6566666555ff66544565ffff5565566555ff66544565ffff666556ffffffffffffffffffffffffffffffffffffffffffffffff7666ff7765566666ffff66675444ff5543344454ffff54456565ff6666466565ff66ff666666ff6655555666ff66ff666666ff7665556666ff6666ff6555ff6654456555ff5665ff
  0x1ff65ff56565655ff64556565ff65ff56555655ff6465656555ffff66555666ff6455656655ffff65555666ff64756576ffffffffffffffffffffffffffffffffffffffffffffffff6676ffff666666ff656566765565ffff555665ff646565656565ff56ff5655ff646555656666ff66ff6666ff756575666565ff5656ff55ff645565655565ff5665ff55ff645566655566ff665556ffff646565565565ff665556ffff64666565ffffffffffffffffffffffffffffffffffffffffffffffff5666ff66566656ffff6666666665ff56555655ffff6465656576ff66666666ff75ff66665554ff45444544ff53ff54546666ff66665766ff6566ff765565ff55555555ff6464ff656676ff56666767ff656676ff4454ff65444555ff536554ff
  0x1ff55ff65555665ff64566555ff65ff65565566ff6566656655ffff65555665ff6456655655ffff65555665ff64556555ffffffffffffffffffffffffffffffffffffffffffffffff5665ffff555665ff646665654454ffff444554ff535554555565ff66ff5655ff645655555565ff75ff5565ff646564655565ff7656ff55ff645665654554ff6554ff54ff635565555554ff554445ffff534554455665ff655556ffff64556565ffffffffffffffffffffffffffffffffffffffffffffffff5655ff66455655ffff6655666564ff65555555ffff6555656665ff65555666ff64ff65563443ff54333443ff42ff43445665ff65554665ff5466ff655565ff65555555ff6456ff654554ff65444554ff535654ff5554ff55444555ff534554ff
  0x1ff55ff665556ff5664665555ff65ff655555ff655465646544ffff554445ff565355544555ffff655555ff6564656565ffffffffffffffffffffffffffffffffffffffffffffffff5566ffff5556ff66646655654454ffff4445ff55535554555565ff66ff56ff66646665555565ff65ff55ff65646564655655ff6655ffff56645665655454ff6554ffff5563566555ffffffffffffffffffffffffffffffffffffffffffffffff4455ff654445ffff534554554454ff654445ffff536654654555ff664556ff66ff6655665666ff655555ff65ff6565655566ff665556ff6664ff65563343ff543334ff4442ff43545555ff655546ff665466ff665555ff655555ff556466ff655565ff565556ff56645665ff4455ff554445ff54536554ff
  0x1ff54ff554445ff5553665445ff65ff655655ff656566656665ffff666656ff666566666655ffff655555ff6564555555ffffffffffffffffffffffffffffffffffffffffffffffff6666ffff6656ff66656676665454ffff4445ff55535454456565ff66ff56ff56646655556565ff65ff65ff66656564556565ff6656ffff56645665555554ff5564ffff5563555545ffffffffffffffffffffffffffffffffffffffffffffffff5554ff554445ffff534554455554ff554445ffff536554456665ff664666ff56ff6656556665ff655555ff55ff6565655565ff665556ff6564ff65564443ff443334ff4442ff43346665ff666646ff665565ff565565ff555555ff556465ff555665ff655556ff56645665ff4554ff654445ff54535554ff
  0x1ff55ff6556ff656655666455ff65ff6665ff55566465656566ffff7666ff66676566656666ffff6566ff666665766575ffffffffffffffffffffffffffffffffffffffffffffffff5565ffff66ff5556645566655555ffff55ff5556546564655565ff66ffff5556646555656565ff75ffff656675667465ffffffffffffffffffffffffffffffffffffffffffffffff5555ff6555ffff56546564556666ff7666ffff66657665755555ff6555ff55ff545564655555ff6555ff55ff546564656666ff7756ff5666ff7666665555ff5555ff5555ff5465646666ff7666ff666765ff65664444ff5444ff444543ff53546656ff6667ff66665566ff665565ff6566ff55566465ff655666ff6666ff6657656665ff5555ff6555ff5555546564ff
  0x1ff65ff6566ff656564655566ff65ff6556ff66656566556665ffff7666ff66767566656655ffff6555ff656564655566ffffffffffffffffffffffffffffffffffffffffffffffff6676ffff66ff7676757666764454ffff54ff5455635555556666ff66ffff6666656566665565ff65ffff656574655566ffffffffffffffffffffffffffffffffffffffffffffffff5565ff6556ffff66645655565665ff6555ffff65646555665665ff6556ff66ff645655565565ff6555ff65ff646555666666ff7656ff6666ff7665766665ff6565ff5555ff6456656676ff7666ff666675ff66664554ff5445ff545453ff44555665ff6556ff65656465ff665565ff6655ff65666465ff655565ff6565ff6566746666ff5565ff6555ff6565646655ff
  0x1ff44ff55ff45545553555445ff55ff65ff5565656465656555ffff66ff5665566466555565ffff55ff55656564655465ffffffffffffffffffffffffffffffffffffffffffffffff6666ffffff566666656665665444ffffff45545553555455ffffffffffffffffffffffffffffffffffffffffffffffff5556ff66ffff6556645665655464ff65ffff6455635665555444ff55ff45ff55535554456555ff65ff55ff65646565655444ff55ff4554ff534554555444ff55ff4554ff536654555546ff56ff565566ff6656566656ff65ff556565ff6565666555ff66ff56656664ff65564333ff44ff34434442ff43446556ff66ff4765665566ff665555ff55ff5555556465ff556555ff66ff566556645665ff5444ff55ff455454535554ff
  0x1ff64ff65ff65656564665555ff65ff65ff5566655566656665ffff66ff5655666466655656ffff65ff55656564655555ffffffffffffffffffffffffffffffffffffffffffffffff6676ffffff666676757666765564ffffff55556564655455ffffffffffffffffffffffffffffffffffffffffffffffff6676ff76ffff6666656566666564ff65ffff6565646565555564ff65ff55ff55645655555665ff65ff55ff65646555665564ff65ff5555ff645555555564ff65ff5555ff647555556666ff76ff565666ff7665665665ff65ff555555ff6455656665ff76ff66666675ff66664453ff54ff44445453ff44445665ff75ff5565656465ff666665ff65ff6666666565ff656665ff66ff666666756665ff5554ff65ff555555645555ff
  0x1ff66ffff6667666675666666ff65ffff555655566465656566ffffff665776666566666665ffffff5556556664656565ffffffffffffffffffffffffffffffffffffffffffffffffffffffffffffffffffffffffffffffffffffffffffffffff6565ffffff565556646555656665ffffff666666756575756565ffff56ff5556645565656565ffff65ff5555646566656565ffff5556ff55645555556665ffff5556ff65646665755565ffff555655ff645565556565ffff555655ff646565656666ffff56675666ff7666666565ffff55565555ff6465657676ffff6667666675ff66665454ffff4445444453ff54547676ffff665766666566ff766565ffff555555556465ff656676ffff66576656656676ff6565ffff55565555646565ff
  0x1ff65ffff5555656664666556ff66ffff666566666566666666ffffff666666767566666666ffffff5665656565666666ffffffffffffffffffffffffffffffffffffffffffffffffffffffffffffffffffffffffffffffffffffffffffffffff7666ffffff666666656666666565ffffff656675756665666676ffff66ff6666656666765665ffff65ff6565646666665565ffff5555ff66645655555665ffff5555ff65646665556666ffff566566ff655666564554ffff444554ff536654556666ffff56665666ff7666666676ffff65656665ff6666665665ffff5556666664ff65565555ffff4554545454ff55556676ffff665566666566ff776676ffff666666657565ff665565ffff55566555645665ff6666ffff56656565656666ff
  1
  1
  0x1ffffff665556556664666556ffffff655555556564656565ffffffffffffffffffffffffffffffffffffffffffffffffffffffffffffffffffffffffffffffffffffffffffffffff66ffffff665666666566667654ffffff444544555355545554ffff55ff4544555355544565ffff75ff5555656465646565ffff6655ff55566456645564ffff6554ff54556355655554ffff654445ff555355544465ffff655555ff556465646554ffff65444544ff5344545554ffff65444544ff5366546555ffff6645564556ff65566565ffff6555455565ff65655665ffff665556556664ff655543ffff543334334442ff435465ffff66554655665566ff6665ffff65455555556466ff5565ffff6655565556645565ff54ffff6544454444535554ff
  0x1ffffff665566746565566656ffffff766666766665766566ffffffffffffffffffffffffffffffffffffffffffffffffffffffffffffffffffffffffffffffffffffffffffffffff77ffffff676776777667777655ffffff555564656455655666ffff76ff6665666566666656ffff65ff6565656465556666ffff7666ff65666566766655ffff6665ff64656455655655ffff655556ff656456654666ffff655555ff656465655655ffff66555665ff6446655655ffff65555664ff6466655556ffff7656576566ff66666666ffff7666666666ff65666566ffff766666666675ff665644ffff554445535453ff544566ffff76565665666566ff6666ffff66566665666566ff6656ffff7666666565655676ff55ffff6655565564645665ff
  0x1ffffffffffffffffffffffffffffffffffffffffffffffffffffff655546655654566555ffffff544444545453545454ffffffffffffffffffffffffffffffffffffffffffffffffff65ffff5545655554566565ff53ffff3334434442444344ff54ff55ff45444553554454ff54ff64ff54545463546354ff64ff6545ff444553455454ff53ff5453ff434452455444ff43ff443334ff4542444334ff54ff644444ff5453545464ff53ff54333445ff42344344ff53ff54333453ff42554354ff54ff5535454455ff554555ff64ff6445445554ff566455ff54ff554445555653ff5445ff42ff432223323331ff3243ff64ff55453654554455ff55ff54ff54444444445355ff54ff64ff6544455546534654ffff53ff5433344443425443ff
  0x1ffffffffffffffffffffffffffffffffffffffffffffffffffffff766566666665666666ffffff666666667675666566ffffffffffffffffffffffffffffffffffffffffffffffffff76ffff6667666675667676ff55ffff5556656564656556ff55ff66ff56656664666556ff66ff76ff66667675766566ff66ff7666ff666775667566ff65ff6665ff656664666656ff55ff665556ff6564666556ff66ff766666ff6665666666ff55ff66555665ff64566556ff55ff66555665ff64766556ff56ff6756676667ff776666ff66ff6666566666ff756666ff66ff776667667675ff7667ff44ff554445545553ff5445ff66ff76665666766576ff67ff66ff66566666667565ff66ff66ff7666676666756676ffff55ff6655566565645665ff)
 (mkT
  0x1ff76ff7676776666767677ffff65ff6554646454565656ff75ffff7676767666666676ff65ffff7675756465566666ffffffffffffffffffffffffffffffffffffffffffffffffff6576ffff66666666656676ff6475ffff65656565556566ff6576ff66ff766666666567ff7564ff76ff656565566666ff6576ff6676ff6666667576ff6464ff6565ff6565556555ff7576ff766666ff66657676ff6364ff655465ff64455555ff6576ff77666666ff666676ff6364ff64546564ff455555ff7575ff7666667676ff6666ff5665ff5565665566ff6466ff7465ff666565656556ff66ff6565ff655556655664ff65ff6475ff65656665655565ffff6576ff66767666666675ffffffffffffffffffffffffffffffffffffffffffffffffffff
  0x1ff76ff7776776767767677ffff66ff6666656555676666ff75ffff7776766666666676ff76ffff7776767666767777ffffffffffffffffffffffffffffffffffffffffffffffffff7576ffff76767666666676ff6576ffff66766656666676ff6676ff67ff766657666667ff7676ff77ff767766677776ff6676ff6777ff6757676677ff6576ff6776ff6656666676ff6576ff776666ff66656566ff7566ff677676ff66667776ff7676ff77777767ff767677ff7465ff66656665ff565665ff7677ff7777767667ff7677ff5665ff5665665646ff5566ff7566ff677676656766ff76ff6777ff766667666775ff76ff6676ff67767766577666ffff6676ff67777666566766ffffffffffffffffffffffffffffffffffffffffffffffffffff
  0x1ff77ff77777776777776ff77ff65ff65645464545656ff5676ffff77767677767676ff7775ffff76756565656666ff67ffffffffffffffffffffffffffffffffffffffffffffffff7677ffff767677667676ff777576ffff756575656666ff677576ff77ff7676666666ff767575ff75ff6575656666ff667677ff7776ff76667676ff776465ff6565ff65655555ff667676ff777666ff767677ff676475ff756565ff655666ff666677ff77766677ff7677ff776475ff65656565ff5665ff667676ff7676767675ff66ff676666ff6666766666ff75ff667575ff767565656567ffff666676ff666666666675ffff66ffffffffffffffffffffffffffffffffffffffffffffffff7576ff76757576666666ffff7576ff77666676766666ffff
  0x1ff76ff77677777777776ff77ff66ff66566565656667ff6675ffff77767676766666ff7676ffff77667666667776ff77ffffffffffffffffffffffffffffffffffffffffffffffff7576ffff667676766666ff767576ffff667676766666ff767677ff77ff7776677776ff767666ff77ff7677766776ff766576ff7676ff66666665ff667576ff7766ff76666666ff767677ff776677ff777676ff766566ff677676ff766776ff666676ff66676666ff6675ff766465ff66657665ff5655ff657677ff7767767677ff76ff776667ff7666776657ff65ff767566ff676676656767ffff666666ff775666666765ffff76ffffffffffffffffffffffffffffffffffffffffffffffff7576ff77767666666766ffff7677ff77677676667676ffff
  0x1ff65ff766566556666ff6666ff65ff656574656557ff565664ffff766566656656ff666574ffff756575757556ff5666ffffffffffffffffffffffffffffffffffffffffffffffff7475ffff6566756655ff65666364ffff5465646546ff55556475ff66ff66656656ff66657465ff65ff65656556ff56566465ff6665ff555655ff65656364ff6554ff646546ff55556465ff665556ff6655ff65567465ff656565ff6556ff56657566ff66666666ff65ff76765253ff54435453ff35ff44547465ff6665657566ffff56666566ff5666665656ffff6665ffffffffffffffffffffffffffffffffffffffffffffffff6364ff655465646546ffff657465ff666566656656ffff756465ff656565655656ff66ff6465ff665566656655ff65ff
  0x1ff67ff777777676877ff7777ff66ff665665666666ff666766ffff777776676776ff777777ffff777776667777ff7777ffffffffffffffffffffffffffffffffffffffffffffffff6676ffff6667676775ff76776666ffff6676576776ff77676666ff67ff77576766ff66667766ff77ff66677776ff76776666ff6767ff576766ff77666666ff6766ff576776ff77667676ff776776ff6776ff77776576ff777676ff7666ff76666676ff77666767ff75ff76766676ff66666666ff65ff76777777ff7767776777ffff76775655ff5655664656ffff6655ffffffffffffffffffffffffffffffffffffffffffffffff6666ff676677566775ffff666666ff676766576767ffff667677ff776676676666ff77ff7777ff776776676776ff77ff
  0x1ff66ff7667767666ff777767ff54ff5444535343ff45454566ffff6676657665ff66766665ffff6564645554ff565656ffffffffffffffffffffffffffffffffffffffffffffffff6666ffff66756665ff6676666565ffff55646454ff5656566766ff66ff656555ff6666666455ff65ff646554ff5656566666ff7666ff6555ff6666666565ff6565ff6454ff5656566666ff665665ff65ff6666565564ff656564ff54ff5655555766ff66566566ffff6666666564ff64556464ffff565555ffffffffffffffffffffffffffffffffffffffffffffffff6565ff6555646455ffff56566766ff6656656666ffff66667675ff6565656564ff57ff566666ff6665656555ff66ff666675ff6565746655ff5666ff6666ff6655656565ff6666ff
  0x1ff77ff7776677767ff867777ff67ff7666667666ff77676776ffff7777777777ff76777777ffff7777777677ff767777ffffffffffffffffffffffffffffffffffffffffffffffff7677ffff76677767ff7677777677ffff76677667ff7677776676ff66ff666666ff7567667677ff77ff677777ff7677777576ff7776ff6667ff7677667677ff7776ff7667ff7677777677ff777667ff67ff7677767677ff777777ff76ff7677767676ff77666777ffff7566766566ff66666665ffff656666ffffffffffffffffffffffffffffffffffffffffffffffff7677ff7777776677ffff77677666ff6665566656ffff66676676ff6776676667ff75ff767677ff7777777767ff76ff777677ff7777777767ff6677ff7677ff7776676667ff7677ff
  0x1ff66ff67767666ff66756676ff66ff55666565ff6666666666ffff66667666ff6675676666ffff66767666ff66756676ffffffffffffffffffffffffffffffffffffffffffffffff6676ffff667666ff667566665565ffff656665ff666466665665ff56ff6655ff566456656676ff66ff7666ff667576765565ff5666ff55ff566466655565ff5665ff55ff666466656666ff676676ffff667566666676ff667676ffff66757665ffffffffffffffffffffffffffffffffffffffffffffffff6676ff67777666ffff7567764554ff45545544ffff5355546566ff67667656ff66ff76666665ff66666666ff75ff66665665ff56656655ff6664ff655565ff56666555ff5664ff656666ff56766666ff766576ff6666ff66666666ff657566ff
  0x1ff75ff76767766ff66667676ff65ff65656564ff4656565674ffff66656665ff5656657675ffff76757675ff56676757ffffffffffffffffffffffffffffffffffffffffffffffff7465ffff657665ff565766757475ffff657665ff565666667576ff77ff7765ff666666767575ff76ff7676ff566766667576ff7776ff66ff666676767475ff7665ff65ff565666666576ff766566ffff656666667465ff666566ffff56566666ffffffffffffffffffffffffffffffffffffffffffffffff7576ff76767676ffff6767676666ff66656656ffff6566657465ff65657665ff56ff66566566ff76666666ff65ff66667475ff75657665ff5656ff667566ff77767666ff6666ff766364ff65546554ff464655ff6576ff67666766ff656676ff
  0x1ff76ff776667ff7776756676ff65ff665566ff655666666665ffff766667ff666565666666ffff767676ff7676767676ffffffffffffffffffffffffffffffffffffffffffffffff6676ffff6667ff66756676766676ffff6667ff66657566756676ff66ff66ff66667566756666ff77ff66ff76767676766676ff6666ffff66667576756676ff6666ffff6665756675ffffffffffffffffffffffffffffffffffffffffffffffff6677ff776667ffff656566766566ff666566ffff556566766777ff776777ff77ff7676765665ff555556ff55ff6455647676ff676666ff7766ff76765565ff665556ff5664ff65666676ff677667ff666576ff756676ff666666ff666675ff757576ff777676ff66666676ff6666ff766667ff66657566ff
  0x1ff76ff776667ff6775767666ff55ff555564ff545656564675ffff677666ff666666766675ffff767575ff6556566667ffffffffffffffffffffffffffffffffffffffffffffffff7566ffff6666ff66656676666465ffff6565ff65556566566576ff67ff66ff66667567667575ff76ff65ff66666666666566ff6776ffff66667576666465ff6565ffff6555656656ffffffffffffffffffffffffffffffffffffffffffffffff6576ff766666ffff656576666354ff555455ffff455555457566ff666676ff75ff6666575665ff566566ff56ff6466556354ff555465ff5546ff55456665ff665556ff5664ff65566465ff666566ff655565ff566576ff677666ff666665ff667475ff656575ff66565666ff6566ff766666ff66656676ff
  0x1ff76ff7676ff666676757666ff66ff6666ff65555666666675ffff7676ff76666676777666ffff7676ff666666757766ffffffffffffffffffffffffffffffffffffffffffffffff6576ffff76ff6666666566666576ffff66ff6666667576666576ff66ffff6666667567666676ff76ffff666666757666ffffffffffffffffffffffffffffffffffffffffffffffff7676ff7776ffff67767676776576ff7676ffff66667576657677ff7777ff67ff767676775465ff6565ff65ff566466657676ff7777ff7777ff7676765665ff6565ff5655ff6466556566ff7666ff566667ff76666566ff6666ff666665ff65666576ff7676ff66666675ff766566ff6666ff66666675ff666576ff7676ff6656666577ff6576ff7776ff6676666576ff
  0x1ff77ff7777ff777776767777ff55ff5565ff64545556465676ffff6777ff76767776677765ffff6675ff666556665767ffffffffffffffffffffffffffffffffffffffffffffffff7667ffff77ff7676767767776475ffff65ff6565555556667677ff77ffff7666677667777566ff66ffff666566665667ffffffffffffffffffffffffffffffffffffffffffffffff7677ff7777ffff76767767676565ff6666ffff65666656666677ff7777ff77ff767667776465ff6565ff65ff555556667566ff6666ff7665ff6657676676ff7666ff6666ff7567767565ff6676ff656666ff56667676ff7766ff767776ff66777576ff7676ff75656666ff677566ff6776ff76666666ff767576ff6676ff7666666657ff7566ff6776ff7676666666ff
  0x1ff66ff77ff67766775767667ff56ff66ff6565656567666676ffff77ff7776777676777776ffff77ff66657666667667ffffffffffffffffffffffffffffffffffffffffffffffff7666ffffff677666756676777566ffffff66766665667676ffffffffffffffffffffffffffffffffffffffffffffffff7677ff77ffff7667767677767666ff77ffff7666757676767566ff77ff66ff66657676666666ff77ff76ff76767677766666ff77ff6776ff656676766566ff66ff6675ff656566667667ff77ff767776ff7676676666ff66ff666566ff6566657566ff77ff66667766ff76676555ff66ff56655664ff65667666ff77ff6776667576ff766676ff66ff6666666675ff667676ff77ff767667766677ff6666ff76ff666666757676ff
  0x1ff76ff77ff77777776767777ff65ff65ff6464544656555676ffff77ff7677766677767665ffff66ff75666556665757ffffffffffffffffffffffffffffffffffffffffffffffff7676ffffff767776667676767575ffffff76756556666666ffffffffffffffffffffffffffffffffffffffffffffffff7676ff77ffff7666667666777575ff76ffff7675666666667676ff77ff76ff76667676676575ff76ff65ff65566666666776ff77ff7677ff667676776464ff65ff6565ff566665557676ff75ff757565ff6766666665ff66ff666666ff7566666564ff65ff75656657ff65556675ff66ff66666665ff66667565ff76ff6576655666ff677666ff67ff7676666776ff767575ff76ff756666566666ff7666ff67ff767676667666ff
  0x1ff76ffff7666666777756776ff66ffff655565556666666675ffffff767676766676767676ffffff7666656666667766ffffffffffffffffffffffffffffffffffffffffffffffffffffffffffffffffffffffffffffffffffffffffffffffff6676ffffff666666667566666675ffffff666666667566757576ffff76ff6666667666766566ffff76ff6666666576757677ffff7677ff77766677766466ffff6566ff65566666757576ffff766666ff667667665465ffff655655ff566465656676ffff77676666ff7567766666ffff65655665ff6566666566ffff6666566667ff76667666ffff6666666675ff66766576ffff766766666675ff767576ffff666666666675ff766576ffff76666657666676ff6676ffff66667566657676ff
  0x1ff76ffff7677667766667777ff65ffff657465645656565675ffffff667666666666767675ffffff7675756566666767ffffffffffffffffffffffffffffffffffffffffffffffffffffffffffffffffffffffffffffffffffffffffffffffff6576ffffff766666666567767575ffffff657675666666676576ffff76ff6666666576766475ffff65ff6565555566666576ffff6666ff66656676677475ffff6575ff65566666566676ffff666677ff756676766364ffff546554ff454555557576ffff66757676ff6666675665ffff65665556ff6466657475ffff6575656656ff66565665ffff5556655664ff65666475ffff656565655555ff666576ffff767666666665ff766475ffff65656565555566ff6576ffff66666666656676ff
  1
  1
  0x1ffffff777677767776767776ffffff665565556566666666ffffffffffffffffffffffffffffffffffffffffffffffffffffffffffffffffffffffffffffffffffffffffffffffff75ffffff666666666566767675ffffff666666666576767675ffff77ff6666666576766676ffff76ff6666766676757675ffff7676ff76766676767675ffff6666ff66666566657675ffff776666ff666576766664ffff666566ff755666657666ffff77666666ff6566767664ffff65556665ff5565656576ffff7767676776ff76767766ffff6666666566ff65666575ffff766676666666ff766665ffff665556555664ff656675ffff76666766666576ff7675ffff77667675766666ff6675ffff7666766667666676ff75ffff6666666666657666ff
  0x1ffffff777777767776767777ffffff666565645557565656ffffffffffffffffffffffffffffffffffffffffffffffffffffffffffffffffffffffffffffffffffffffffffffffff76ffffff777776677667877775ffffff767675666666676776ffff77ff7776677676777775ffff76ff7576655666666776ffff7777ff76677676777775ffff7676ff75666666676776ffff777777ff777676776765ffff666675ff656666675766ffff77777776ff7666777764ffff65656664ff5656665676ffff7676767566ff67676766ffff6666676556ff65666665ffff666575746657ff665666ffff766667656775ff666675ffff76767675766666ff6776ffff77777776677676ff7775ffff7676767565665677ff76ffff7677777666767677ff
  0x1ffffffffffffffffffffffffffffffffffffffffffffffffffffff766667766775667676ffffff666666666675766666ffffffffffffffffffffffffffffffffffffffffffffffffff75ffff5556665664566566ff65ffff5556655664666566ff66ff67ff66666775666676ff65ff66ff56766665766566ff66ff6666ff666665666666ff65ff6655ff655664666566ff65ff665556ff5664656556ff76ff666666ff6675767666ff65ff66555666ff64566565ff65ff56555665ff64666566ff66ff6657666667ff776576ff65ff6666666666ff756665ff76ff676666766775ff7667ff54ff554445544553ff5455ff75ff66555665566466ff66ff66ff66666666667566ff76ff76ff6666667666756676ffff65ff6555565655646665ff
  0x1ffffffffffffffffffffffffffffffffffffffffffffffffffffff777677777667767777ffffff777576766667676767ffffffffffffffffffffffffffffffffffffffffffffffffff77ffff7677777666777777ff76ffff6575667656666767ff77ff76ff76766666767777ff66ff66ff75666567676757ff76ff7776ff677667767777ff76ff7675ff756656666767ff77ff777667ff7766777777ff75ff767575ff6557676666ff76ff77667777ff66767777ff65ff65646565ff46665656ff76ff7676767676ff776767ff76ff6766776667ff757766ff65ff666465656657ff5656ff66ff776667766775ff7667ff76ff76757676755666ff67ff77ff77767677776776ff77ff76ff7675767676576767ffff77ff7776767777667777ff)
 (mkT
  0x1ffff767766677666767566ffffff646555656555656566ffffffffffffffffffffffffffffffffffffffffffffffffff76ffff6656676666667576ff63ffff5554645554555455ff75ff66ff66766666666577ff74ff65ff55656555656466ff75ff6566ff666555656455ff74ff6566ff656555656466ff65ff656655ff6555556466ff74ff656555ff6555656465ff75ff65665566ff55656456ff74ff65666565ff55656566ff65ff6676666666ff656566ff74ff6565656665ff656466ff75ff767666666666ff7566ff64ff555544555444ff5365ff75ff76675666666676ff76ff65ff65665555555564ff65ff75ff7676666766666675ffff74ff6566555565556564ffffffffffffffffffffffffffffffffffffffffffffffffffff
  0x1ffff777767777667767676ffffff656666656555666666ffffffffffffffffffffffffffffffffffffffffffffffffff76ffff6766776656666677ff65ffff5665656455665666ff76ff66ff76666666766677ff76ff66ff66666556766677ff76ff6667ff676656666566ff76ff7566ff766566666676ff76ff666666ff6656666566ff75ff666666ff6556666676ff66ff66666666ff57756666ff76ff75667676ff66667676ff66ff6667666766ff756666ff75ff6666666675ff766576ff76ff767767766666ff7677ff65ff565655565545ff5566ff76ff76676676656776ff76ff66ff66665666655665ff66ff76ff7677777776677777ffff76ff6667656655567666ffffffffffffffffffffffffffffffffffffffffffffffffffff
  0x1ffff7677667777777676ff77ffff6465655555556565ff65ffffffffffffffffffffffffffffffffffffffffffffffff76ffff77676766667675ff6674ffff65656565656565ff6576ff76ff766677677676ff7775ff65ff666666666665ff6665ff6566ff6655566564ff5575ff7566ff6666667675ff7665ff656666ff66666565ff6665ff757666ff66667565ff7665ff65666666ff666575ff6675ff75766666ff667575ff7666ff7676666666ff6565ff7675ff7576666666ff7575ff6676ff767767776667ff75ff6665ff656555555555ff64ff6576ff76776777676776ffff7665ff66655555655664ffff65ffffffffffffffffffffffffffffffffffffffffffffffff76ff7677676767677676ffff76ff7576666666667575ffff
  0x1ffff7777676777777676ff77ffff7566666566656666ff66ffffffffffffffffffffffffffffffffffffffffffffffff76ffff67666766666675ff7675ffff66656665666665ff6675ff66ff666666666665ff7675ff66ff666766666665ff7676ff6666ff6766666675ff7575ff6566ff6666666665ff7665ff556655ff55565564ff6575ff766676ff66667666ff7566ff66766666ff676575ff7675ff65666676ff666675ff6676ff7666666766ff6675ff7664ff6566656565ff6555ff7576ff767766767776ff76ff7666ff666665665656ff65ff6675ff76676676666776ffff6666ff66665656666665ffff66ffffffffffffffffffffffffffffffffffffffffffffffff75ff6677767667667666ffff66ff7677666666667666ffff
  0x1ffff76775666556666ff6666ffff64656565645566ff6565ffffffffffffffffffffffffffffffffffffffffffffffff75ffff666677665666ff667652ffff544353434544ff445375ff66ff6666666666ff666663ff65ff5455545455ff556464ff6666ff66555555ff556573ff6565ff64646555ff656464ff556655ff555555ff566563ff556454ff545555ff546464ff66665566ff5665ff566575ff75656565ff6666ff657475ff6666666666ff65ff666563ff6455546454ff55ff556474ff666565556566ffff566554ff565545554545ffff6554ffffffffffffffffffffffffffffffffffffffffffffffff74ff66755566656656ffff7563ff65655454545455ffff6465ff66666666665766ff76ff64ff65666465556555ff55ff
  0x1ffff77776777666776ff7777ffff65666576666666ff6666ffffffffffffffffffffffffffffffffffffffffffffffff66ffff675666556666ff666665ffff675666566576ff766676ff77ff6777666766ff777766ff76ff5666556666ff666766ff7667ff66556665ff656666ff7576ff66666675ff766666ff766656ff556655ff666665ff766656ff556675ff766666ff66675666ff6665ff566676ff76776776ff7676ff777666ff7676666666ff65ff767666ff7666666665ff65ff666676ff767766676667ffff667755ff665645554455ffff6655ffffffffffffffffffffffffffffffffffffffffffffffff76ff76776767667666ffff7766ff66665655555676ffff6676ff76776776666676ff77ff76ff76676666566676ff67ff
  0x1ffff757666666666ff766676ffff535444544444ff545454ffffffffffffffffffffffffffffffffffffffffffffffff66ffff6656665665ff65766674ffff6565656555ff66656566ff65ff66656666ff65766665ff64ff55655555ff65666565ff6465ff655555ff65556555ff6465ff656555ff55656555ff646655ff5556ff64665565ff646555ff5555ff65656566ff64655565ff55ff65566565ff64655565ff55ff65656566ff7575666666ffff65666565ff6465656565ffff656565ffffffffffffffffffffffffffffffffffffffffffffffff76ff756666666666ffff666666ff656656565656ffff656566ff757666666666ff65ff6665ff646555555555ff65ff6576ff656666666656ff6676ff65ff746565655565ff6565ff
  0x1ffff677766666667ff756776ffff757666666666ff766676ffffffffffffffffffffffffffffffffffffffffffffffff77ffff7767777777ff76777665ffff6765666566ff65666676ff66ff66776667ff75667676ff66ff66666666ff75667665ff5666ff665556ff64556576ff6676ff666666ff75677666ff666666ff6666ff65667565ff567655ff5556ff64766565ff56665566ff56ff64566576ff76766676ff66ff75766676ff6677666666ffff65667575ff6666666666ffff656676ffffffffffffffffffffffffffffffffffffffffffffffff76ff777766776667ffff767666ff666655555556ffff666676ff767777677777ff76ff7676ff667766666666ff75ff7676ff667766676667ff7577ff76ff677766665766ff7667ff
  0x1ffff7667666766ff75656666ffff6455556555ff65656665ffffffffffffffffffffffffffffffffffffffffffffffff65ffff56556655ff5564666564ffff56556655ff6564665576ff66ff667666ff6675667565ff65ff656665ff6564666665ff6556ff6655ff6564556565ff6566ff6666ff7665666565ff655655ff55ff5564666564ff655555ff55ff6564666565ff65565566ffff6564566575ff75666676ffff76757665ffffffffffffffffffffffffffffffffffffffffffffffff65ff7566667766ffff75667654ff5545445544ffff53555465ff6667566756ff76ff766665ff6556555655ff64ff656565ff6666666766ff6675ff7665ff5556555555ff6564ff6576ff6657666766ff766677ff66ff6666666656ff757566ff
  0x1ffff6676667666ff76656676ffff6465556555ff56556565ffffffffffffffffffffffffffffffffffffffffffffffff76ffff76667766ff7665766563ffff55546444ff5545556464ff65ff656565ff6555667564ff55ff556655ff6554665565ff5566ff6655ff6564556564ff6566ff6555ff6555766565ff556655ff55ff5564666564ff556555ff55ff6554656565ff55665566ffff6564566575ff65666666ffff66657675ffffffffffffffffffffffffffffffffffffffffffffffff75ff6576666666ffff65667654ff4665445544ffff53655465ff7666566656ff76ff766555ff6566555555ff64ff656575ff6676666666ff6665ff7664ff5556555555ff6554ff5564ff5566556555ff655466ff64ff6566656655ff555565ff
  0x1ffff76776667ff6775766676ffff65666666ff6665657665ffffffffffffffffffffffffffffffffffffffffffffffff66ffff666667ff666575666565ffff666565ff666555666566ff66ff6667ff677575666666ff66ff6666ff667565766566ff6666ff67ff666675666566ff6676ff66ff767566767666ff666666ffff666565666565ff666666ffff6675657665ffffffffffffffffffffffffffffffffffffffffffffffff66ff66676666ffff6565667566ff66766666ffff7565767666ff66776667ff67ff75677655ff65555556ff55ff64655466ff66676667ff7775ff766655ff65655555ff5664ff656576ff67776667ff777676ff7665ff55665565ff566564ff6566ff66676666ff67756676ff55ff55665556ff65646565ff
  0x1ffff76666666ff6775766666ffff64556565ff5556656555ffffffffffffffffffffffffffffffffffffffffffffffff75ffff666676ff667675666663ffff455454ff455555544475ff66ff7676ff667666766564ff55ff6556ff556555655575ff6666ff66ff566665666574ff6556ff65ff566565665565ff666666ffff566565666564ff555565ffff5665656555ffffffffffffffffffffffffffffffffffffffffffffffff75ff66666566ffff6566666574ff65566555ffff6565655575ff65666666ff66ff76656664ff56555555ff45ff54555474ff65566565ff5666ff655565ff65555555ff5664ff555575ff66666666ff666675ff6664ff65566565ff556555ff5575ff66666666ff57766676ff65ff75666566ff66656665ff
  0x1ffff667666ff666766756676ffff646555ff555555657665ffffffffffffffffffffffffffffffffffffffffffffffff76ffff6766ff66666675667564ffff6655ff55566554666565ff55ff55ff55565564666565ff55ff55ff55566564766565ff5566ffff55566564556565ff6566ffff666666657675ffffffffffffffffffffffffffffffffffffffffffffffff65ff556655ffff566564566575ff657666ffff666675767566ff667666ff66ff6565667564ff556555ff55ff6564666576ff667666ff6667ff75667654ff455544ff4445ff53655465ff666656ff566776ff766655ff556655ff555664ff656566ff666666ff66676675ff7665ff555555ff55566564ff6565ff566666ff6657666576ff66ff666666ff5666757566ff
  0x1ffff767777ff777776767676ffff645556ff555555555565ffffffffffffffffffffffffffffffffffffffffffffffff75ffff7666ff66667665676665ffff5565ff55566565656475ff75ff76ff76766666667664ff55ff55ff55556554666576ff7566ffff66666675666675ff6566ffff666666656665ffffffffffffffffffffffffffffffffffffffffffffffff66ff756666ffff666565666676ff656666ffff666665667666ff766666ff66ff6565767665ff656666ff66ff6565666566ff756667ff7666ff66667665ff555555ff5555ff64566576ff766666ff666776ff767556ff666555ff655664ff656566ff657666ff66666575ff7664ff656665ff55556554ff5575ff666666ff6666766577ff65ff656666ff6666656566ff
  0x1ffff6666ff66666775756566ffff7566ff66666666666565ffffffffffffffffffffffffffffffffffffffffffffffff76ffff66ff6666666666756565ffff66ff6665666565656576ff66ffff6666677675667666ff66ffff66666675757565ffffffffffffffffffffffffffffffffffffffffffffffff66ff6666ffff66666565767566ff6666ffff66667575767566ff6666ff66ff666575656576ff7676ff77ff777676767666ff6666ff6666ff6565756675ff6666ff6666ff6565656666ff6667ff776667ff75666665ff5555ff565555ff64656476ff6667ff67667776ff767655ff5555ff55655664ff645576ff7777ff6777777676ff7665ff5566ff5555566564ff6576ff6777ff677767767676ff66ff6666ff666666756575ff
  0x1ffff7676ff77666775756766ffff6455ff55555556655555ffffffffffffffffffffffffffffffffffffffffffffffff65ffff66ff6655566664665564ffff55ff6555566565655475ff65ffff6666666665766665ff65ffff66555665646655ffffffffffffffffffffffffffffffffffffffffffffffff65ff6566ffff56565564665565ff6566ffff55566564665565ff6566ff66ff566564565576ff7566ff66ff666665666576ff7666ff6666ff6565666565ff6566ff6665ff6564665576ff7566ff666666ff75666654ff5555ff554445ff53554465ff6566ff66565666ff766566ff6565ff56555664ff655566ff7576ff6666666665ff6664ff6566ff6555566554ff5576ff6666ff676657766577ff65ff6566ff665666656566ff
  0x1ffff76ff6667666776756776ffff64ff5555555565656565ffffffffffffffffffffffffffffffffffffffffffffffff76ffffff666766666675777663ffffff5454545455545554ffffffffffffffffffffffffffffffffffffffffffffffff65ff65ffff5655566564556564ff75ffff6565656565766565ff65ff55ff55565564656564ff65ff55ff55556564656565ff65ff5556ff566564566574ff75ff6565ff656565667565ff65ff555655ff5564666564ff65ff555555ff6564656575ff76ff66666666ff75667654ff55ff44454445ff53655465ff76ff5666566676ff766665ff65ff5555555564ff656575ff76ff666766666675ff7664ff65ff555555556564ff6575ff66ff66566657766676ff75ff75ff65665556656566ff
  0x1ffff77ff6777667776767777ffff65ff6675666566666666ffffffffffffffffffffffffffffffffffffffffffffffff76ffffff667666666675776675ffffff6676656676656666ffffffffffffffffffffffffffffffffffffffffffffffff76ff76ffff7666666675667675ff66ffff7666667665776575ff66ff66ff66666665667675ff66ff66ff66667665766566ff76ff6666ff666575666675ff66ff6676ff667676776576ff77ff777676ff7666777664ff55ff656655ff6554666576ff76ff67766776ff76777665ff66ff55655555ff64666565ff66ff5667566776ff766666ff66ff6666656675ff667676ff77ff777677777676ff7675ff66ff666666667665ff6675ff66ff66776656766577ff65ff66ff66666676656676ff
  0x1ffffff665566555666645665ffffff655565555565646565ffffffffffffffffffffffffffffffffffffffffffffffffffffffffffffffffffffffffffffffffffffffffffffffff66ffffff666666566665766654ffffff445544455553555454ffff65ff5544455553445465ffff65ff5555556564656454ffff6544ff44454453555454ffff6544ff44456653655454ffff554455ff455553455465ffff755565ff556564656465ffff66555655ff5664556464ffff65545554ff5563556565ffff6655665556ff64556543ffff5433443334ff42544355ffff664556455665ff655665ffff655565554565ff566565ffff66555655565564ff6554ffff65444444455553ff5465ffff6655665546665566ff65ffff6555554555666455ff
  0x1ffffff777677767776767677ffffff665565556566666666ffffffffffffffffffffffffffffffffffffffffffffffffffffffffffffffffffffffffffffffffffffffffffffffff75ffffff666666666665767675ffffff666666667665767675ffff77ff6666667665667664ffff66ff7565666656766566ffff7766ff66666665767664ffff6565ff55666555656575ffff776666ff667665667676ffff766676ff667666767575ffff76767676ff7666767675ffff66666666ff6665766575ffff7666666676ff66667665ffff6655565556ff64666576ffff776776676776ff777666ffff666566666665ff656675ffff76666766766666ff7675ffff66666666667665ff6675ffff7666666667766576ff75ffff7775766676666666ff
  1
  1
  0x1ffffffffffffffffffffffffffffffffffffffffffffffffffffffffffffffffffffffffffffffffffffffffffffffffffffff665666666675666676ffffff655556555664656565ffff66ff6666666675667676ffff65ff5555555564656565ffff6566ff56555664655565ffff6666ff55656664656565ffff657555ff555664556565ffff656555ff555664656565ffff65555555ff5664655555ffff76766666ff6675767675ffff6565555556ff64556565ffff6565555565ff64656565ffff666656565666ff766666ffff656555565555ff646565ffff76666666666775ff6666ffff54544444444553ff5454ffff6666565766676566ff76ffff6565555555556465ff65ffff666666566657656676ffffff656555555655646565ff
  0x1ffffffffffffffffffffffffffffffffffffffffffffffffffffffffffffffffffffffffffffffffffffffffffffffffffffff777576766667666667ffffff565464556656665655ffff76ff7676767766767777ffff66ff6576666566666666ffff6576ff76666666665666ffff7566ff75666666657666ffff667665ff666656656766ffff656565ff666666666566ffff65766576ff6666666666ffff65666676ff6666756676ffff7677767677ff66767676ffff6566656566ff66756666ffff767676667677ff766777ffff566664666555ff556655ffff76666575666667ff6666ffff76666666666675ff6566ffff7676667777676776ff77ffff6666656565656666ff66ffff667766766766766677ffffff766775766666667666ff)
 (mkT
  0x1ffff767765666676657666ffffff656664656565555556ffffffffffffffffffffffffffffffffffffffffffffffffff66ffff7765667676657666ff64ffff5563545454465545ff76ff77ff76777677667677ff65ff65ff64656465556556ff66ff7677ff666666667557ff65ff7465ff656565656556ff66ff667775ff6666566567ff64ff656564ff6565556556ff76ff67777566ff76667667ff65ff64656465ff65555556ff66ff6677656666ff656666ff65ff6565646565ff556556ff75ff756664666565ff6656ff55ff666664655555ff6456ff65ff75767576666666ff67ff65ff56665455656554ff55ff65ff6576656575765666ffff66ff7676656565666675ffffffffffffffffffffffffffffffffffffffffffffffffffff
  0x1ffff777776677777767776ffffff767776777767767777ffffffffffffffffffffffffffffffffffffffffffffffffff77ffff7776777767667677ff65ffff6765666666666666ff77ff76ff77777777767687ff76ff76ff76777767767777ff76ff7677ff676667757666ff76ff7677ff767766767677ff66ff667677ff6667667576ff76ff767776ff7667767777ff66ff66766566ff66656666ff66ff75667666ff66666676ff66ff6676666777ff756676ff76ff7667756676ff666666ff76ff777766777777ff7777ff66ff666775666656ff6667ff76ff76777677676776ff77ff76ff76776667766776ff77ff77ff7788777787777787ffff76ff7677667677677776ffffffffffffffffffffffffffffffffffffffffffffffffffff
  0x1ffff7677766676777676ff77ffff6565656465655656ff66ffffffffffffffffffffffffffffffffffffffffffffffff77ffff77767676777676ff7765ffff65645564655656ff5576ff76ff777777777677ff8765ff65ff756575665666ff6666ff7676ff6666676675ff6665ff6475ff6565656555ff6677ff667676ff76776676ff7664ff646565ff65655565ff6676ff76767676ff777676ff6765ff64656565ff656555ff5676ff6676666666ff7566ff7775ff6575756575ff6666ff6675ff757665667576ff66ff6666ff667665656566ff65ff6676ff75767665756666ffff6666ff66666565757665ffff66ffffffffffffffffffffffffffffffffffffffffffffffff75ff7576766666766666ffff76ff7677766676766676ffff
  0x1ffff7777566666776676ff67ffff7576566666766677ff77ffffffffffffffffffffffffffffffffffffffffffffffff76ffff77577666776776ff7765ffff67556666766666ff6777ff77ff667677776776ff8776ff76ff566666776676ff7776ff7676ff6666677675ff7676ff7677ff6677767676ff7766ff667666ff66675665ff7676ff777766ff66677676ff7776ff76775766ff777676ff6766ff76776676ff767766ff6776ff7677566676ff6666ff7776ff7677556666ff6666ff7676ff767756767677ff76ff7776ff767756665666ff76ff7676ff76776677677777ffff7765ff66664655656665ffff66ffffffffffffffffffffffffffffffffffffffffffffffff77ff7687667777777776ffff76ff7677566666767676ffff
  0x1ffff76766566666765ff6666ffff75667566657566ff5666ffffffffffffffffffffffffffffffffffffffffffffffff76ffff777566766766ff677653ffff445243435535ff344475ff76ff6566767766ff667664ff55ff6354545446ff455565ff6676ff65666656ff566674ff6565ff64656556ff465665ff566674ff656766ff566563ff655453ff545546ff455566ff67766566ff6765ff666664ff64656465ff6556ff565665ff6666656666ff65ff667664ff5455635454ff46ff455564ff665563555465ffff455556ff666665655656ffff5665ffffffffffffffffffffffffffffffffffffffffffffffff64ff65656464656546ffff6665ff66666465566656ffff6574ff75756565656656ff66ff65ff66566455656655ff55ff
  0x1ffff76777566667766ff6767ffff75767666666676ff6766ffffffffffffffffffffffffffffffffffffffffffffffff66ffff776566667665ff666765ffff676566667666ff666777ff77ff7677777766ff777766ff76ff7566667666ff676766ff7677ff76667766ff576677ff7676ff76667675ff666667ff767776ff667756ff666666ff667665ff667775ff666776ff77777667ff7776ff767766ff65666666ff6675ff666666ff6676656666ff65ff666766ff7677756676ff66ff676776ff767766677777ffff667756ff666664555566ffff5656ffffffffffffffffffffffffffffffffffffffffffffffff67ff67776666777766ffff7767ff76766665667667ffff6777ff76777667677776ff77ff76ff77777667677776ff77ff
  0x1ffff757666667666ff666666ffff545563545454ff454555ffffffffffffffffffffffffffffffffffffffffffffffff67ffff7666666766ff66667666ffff6565756565ff57565666ff75ff76767676ff67767665ff64ff64656565ff56565666ff6576ff666666ff66566654ff6354ff545454ff56455556ff757665ff6666ff66676665ff746564ff6565ff56565677ff66777566ff76ff66676754ff63545454ff54ff45554566ff6576656676ffff66666765ff6465646565ffff565656ffffffffffffffffffffffffffffffffffffffffffffffff65ff646564656565ffff565666ff657666666666ffff666666ff657665657675ff56ff6766ff756665656666ff66ff6665ff746565656565ff5666ff66ff656665666676ff6666ff
  0x1ffff676765566666ff766667ffff757666667676ff766667ffffffffffffffffffffffffffffffffffffffffffffffff76ffff6775577677ff76676765ffff6765666667ff66666677ff67ff76677767ff76777776ff66ff65567676ff76666766ff6676ff666667ff75566677ff7676ff666666ff75666676ff766666ff6667ff65767666ff667665ff6667ff75666676ff66676556ff66ff76666766ff66767666ff76ff75676776ff6667655676ffff66667676ff6666655676ffff766666ffffffffffffffffffffffffffffffffffffffffffffffff76ff767776677767ffff777765ff565654456556ffff555666ff666776567667ff76ff7776ff777776666777ff76ff7777ff777776676777ff7677ff76ff666765566666ff6666ff
  0x1ffff7677757666ff66666677ffff7566757666ff66666676ffffffffffffffffffffffffffffffffffffffffffffffff66ffff67767666ff5675677665ffff67756666ff6675666676ff77ff767777ff6776768766ff76ff756666ff6675667666ff7666ff7666ff6675577666ff7566ff7666ff7675667666ff666776ff66ff5665767665ff766675ff66ff6675667677ff77777677ffff7676767766ff76767676ffff76657766ffffffffffffffffffffffffffffffffffffffffffffffff66ff7677757776ffff76677655ff6556646655ffff64566566ff6667767767ff76ff777766ff6667656666ff65ff657666ff7677767677ff6676ff8766ff7566667566ff6675ff7676ff7667767767ff767677ff66ff6676656666ff656666ff
  0x1ffff6666656666ff65666667ffff6566646565ff56565666ffffffffffffffffffffffffffffffffffffffffffffffff66ffff76656676ff6576667654ffff55635454ff4645455576ff76ff757666ff6666677665ff65ff646565ff5555565666ff6676ff7666ff6665567665ff6465ff6565ff5565566666ff667775ff66ff5665677664ff656564ff65ff5555566676ff66676566ffff6566666765ff64656565ffff65556656ffffffffffffffffffffffffffffffffffffffffffffffff65ff7565646665ffff56566655ff5666646555ffff64566565ff7576757666ff66ff676755ff5666545565ff54ff556665ff6576656576ff5666ff6766ff6677657566ff6665ff6665ff6566646565ff555556ff76ff6667656666ff656666ff
  0x1ffff77777667ff7776767677ffff65666566ff7665666666ffffffffffffffffffffffffffffffffffffffffffffffff66ffff766566ff766577666665ffff566455ff655666556577ff77ff7677ff777677767766ff66ff6566ff666576666677ff7676ff77ff777676676666ff6566ff66ff767566666676ff777776ffff676676767676ff666675ffff6665766666ffffffffffffffffffffffffffffffffffffffffffffffff66ff66766666ffff7566766676ff66667566ffff6676667666ff76676567ff76ff77667666ff66666566ff66ff65666577ff76777677ff7776ff777655ff56655455ff6554ff555567ff76776666ff776677ff7776ff76777666ff777676ff7666ff66766666ff76757676ff66ff66666566ff76656666ff
  0x1ffff66777566ff7766766767ffff65667465ff6556565656ffffffffffffffffffffffffffffffffffffffffffffffff66ffff777566ff776676676764ffff556354ff554656454576ff76ff7677ff776677777765ff66ff7465ff655656565666ff7676ff76ff676776576675ff7576ff75ff666666566666ff677775ffff675666676664ff656564ffff6655655656ffffffffffffffffffffffffffffffffffffffffffffffff76ff66666566ffff6566666665ff65667465ffff5666565675ff76666466ff66ff66565655ff66667465ff56ff65565575ff65667465ff6656ff565665ff56666455ff6655ff565665ff65767565ff765666ff6766ff76767565ff666666ff6675ff75767566ff66666667ff66ff66776566ff76657666ff
  0x1ffff767665ff667766766567ffff657665ff666666666576ffffffffffffffffffffffffffffffffffffffffffffffff76ffff7776ff76776676757765ffff7665ff66666665656666ff66ff76ff66675665667666ff66ff65ff66666675657666ff6676ffff66666675566666ff6576ffff666666756576ffffffffffffffffffffffffffffffffffffffffffffffff76ff767766ffff676676756766ff757676ffff666665766676ff767666ff66ff6666757766ff667665ff66ff6665657676ff777766ff7777ff76667755ff566564ff5556ff64556566ff667776ff676777ff767665ff666655ff656655ff646666ff667666ff77676676ff7766ff667566ff66666675ff7666ff667676ff6667767576ff76ff667666ff6666667575ff
  0x1ffff667676ff767675766777ffff656665ff656546565656ffffffffffffffffffffffffffffffffffffffffffffffff66ffff7676ff66667675677665ffff6574ff65755656565676ff86ff76ff77777677777765ff65ff64ff65655555566677ff7677ffff76776676677765ff6465ffff656555655666ffffffffffffffffffffffffffffffffffffffffffffffff67ff767776ffff776676777765ff646565ffff655555565666ff767766ff77ff6676777765ff657675ff76ff5666676665ff746565ff6565ff66566666ff566675ff6666ff75676675ff757676ff766656ff676756ff666665ff666665ff666765ff657666ff76765666ff6766ff767775ff66766666ff6675ff757675ff6676666667ff66ff766775ff6677666676ff
  0x1ffff6666ff56656664655556ffff6465ff55656565665566ffffffffffffffffffffffffffffffffffffffffffffffff65ffff66ff6665667465566664ffff66ff5665666565556676ff66ffff6776767566667765ff65ffff56656664655566ffffffffffffffffffffffffffffffffffffffffffffffff66ff7676ffff66676566667665ff6566ffff65667465566665ff6566ff56ff666465555666ff6566ff66ff666566666665ff6566ff5665ff6455556665ff6566ff5665ff6465556665ff6566ff566666ff76656666ff6566ff565556ff64556575ff7576ff66667675ff666754ff5655ff45545553ff445576ff6666ff5776676576ff7766ff6676ff6566666575ff6676ff7677ff677667756666ff65ff6566ff566565646555ff
  0x1ffff7677ff77777776766667ffff6566ff65656556564656ffffffffffffffffffffffffffffffffffffffffffffffff77ffff77ff7777777676676755ffff56ff6555655656464677ff76ffff7777777777777766ff65ffff75667666665657ffffffffffffffffffffffffffffffffffffffffffffffff77ff7677ffff76776776676765ff7565ffff66666666565677ff7777ff77ff767777677765ff6465ff65ff655555565677ff7677ff6776ff7677666766ff7566ff6666ff6666575666ff7566ff666676ff66575767ff6666ff766666ff66565666ff7566ff76666666ff575767ff6666ff66667666ff565765ff6465ff6565655565ff6677ff6667ff7667777776ff6776ff7576ff766676666667ff67ff7667ff767777766767ff
  0x1ffff76ff7576667666766676ffff75ff7566666666666676ffffffffffffffffffffffffffffffffffffffffffffffff77ffffff766777776676767765ffffff6465556556655565ffffffffffffffffffffffffffffffffffffffffffffffff66ff76ffff6666666675577666ff75ffff6666667665667666ff66ff75ff66665665667665ff66ff65ff66666575667677ff77ff7667ff776676767666ff75ff6666ff667665766666ff66ff766666ff5665667666ff76ff756666ff6675667676ff76ff65776676ff76667655ff66ff64565555ff64566567ff76ff7667676777ff767766ff66ff6556666665ff656666ff76ff766676766776ff7666ff76ff656565656665ff6676ff76ff76676767767677ff76ff76ff76676667667676ff
  0x1ffff77ff7676777776767777ffff76ff7576766656666766ffffffffffffffffffffffffffffffffffffffffffffffff77ffffff767677776676777775ffffff7576767666666767ffffffffffffffffffffffffffffffffffffffffffffffff77ff76ffff7777677676677776ff76ffff7576756666676777ff77ff76ff67776776778776ff76ff75ff75766666676777ff77ff7667ff777676777766ff66ff7575ff756656676677ff77ff667777ff7677777765ff65ff646565ff5555566676ff76ff75757676ff67677766ff66ff75666666ff75677666ff75ff7576667666ff676766ff66ff6566766665ff667776ff76ff767686766777ff7777ff76ff767677777776ff7776ff76ff75767666666667ff77ff77ff76777777767777ff
  0x1ffffff667465556656655666ffffff767666666676656665ffffffffffffffffffffffffffffffffffffffffffffffffffffffffffffffffffffffffffffffffffffffffffffffff77ffffff767767676776767755ffffff646555555564566555ffff65ff6555565664466566ffff65ff6555556564566555ffff6665ff55564664566555ffff6564ff55566664556566ffff766566ff666665666656ffff656565ff656564665566ffff76656666ff6665667655ffff66646565ff5564566566ffff7666666666ff75566644ffff5553544445ff53455456ffff766566565766ff666666ffff766666666665ff656656ffff76656566665665ff7655ffff66556455565664ff6566ffff7665665656666566ff66ffff6665665666666566ff
  0x1ffffff777677777776767777ffffff666455656556575656ffffffffffffffffffffffffffffffffffffffffffffffffffffffffffffffffffffffffffffffffffffffffffffffff76ffffff766777776776778775ffffff756676766666676776ffff77ff7777777676677765ffff66ff6566756666576766ffff7776ff77776676777764ffff6564ff65665656566676ffff777667ff777676777775ffff767665ff756656676676ffff77766777ff7676777775ffff76756676ff6666676765ffff6674666575ff57566666ffff7665676667ff75666676ffff767566767667ff676766ffff666556666765ff666675ffff76756576765666ff7776ffff76766677777676ff7775ffff7675767676666667ff76ffff7776677777767677ff
  1
  1
  0x1ffffffffffffffffffffffffffffffffffffffffffffffffffffffffffffffffffffffffffffffffffffffffffffffffffffff666455657655665666ffffff666556666565665666ffff66ff6566766665676677ffff56ff6455656555665666ffff6676ff66666765665666ffff6665ff65656564655565ffff666665ff666665566666ffff566564ff656664665566ffff56666455ff6655665656ffff55655555ff6564656556ffff5665545566ff54565566ffff5666645565ff55655666ffff666656566666ff765666ffff666666666666ff666665ffff66766566666765ff6667ffff45555344545544ff4555ffff5666555576665566ff76ffff6666655566666566ff76ffff666665566666656666ffffff566664556665556656ff
  0x1ffffffffffffffffffffffffffffffffffffffffffffffffffffffffffffffffffffffffffffffffffffffffffffffffffffff776667666775756666ffffff556354545546564545ffff76ff7677777776767777ffff65ff6465656555655656ffff7666ff66666765756666ffff7465ff65656566665656ffff666775ff666766756666ffff656574ff656655655656ffff77776667ff7675766667ffff74656565ff6556565656ffff7667656676ff65666667ffff6566646565ff55655656ffff656664666566ff665656ffff666665665556ff645655ffff65667465656656ff5656ffff66665556656664ff5556ffff7576756576765666ff67ffff7667657666676675ff66ffff757675767666666667ffffff766765666676656666ff)
 (mkT
  0x1ffffffffffffffffffffffffffffffffffffffffffffffffffff666666576656766566ffffff656565655455656466ffff65ff5565664555566466ffff64ff5555555555656465ffff7555ff66665556566466ffff6455ff54544444555355ffff645555ff554444555345ffff646565ff655555656465ffff64555556ff4444455355ffff64555564ff4444645365ffff6566665556ff55666465ffff6455555455ff44555355ffff655666555555ff566465ffff645564545554ff556355ffff75666656665555ff6456ffff53444443443333ff4254ffff6566665566465566ff66ffff6566655455555554ff55ffff756666665655555664ffffff645555555444446553ffffffffffffffffffffffffffffffffffffffffffffffffffff
  0x1ffffffffffffffffffffffffffffffffffffffffffffffffffff666666665656666576ffffff666666666556666566ffff65ff5665665546565566ffff65ff5665565646665566ffff7657ff66566656666566ffff7556ff65565546665566ffff655656ff565546655556ffff666666ff666656766576ffff65565566ff5546565465ffff65565665ff5546665566ffff6555665556ff56656465ffff6566566566ff66666566ffff666656665656ff666576ffff655656655665ff666465ffff76666766676657ff6566ffff54454554454435ff4455ffff6666666666575776ff76ffff7666676666565666ff76ffff666767776766576766ffffff655556565555466655ffffffffffffffffffffffffffffffffffffffffffffffffffff
  0x1ffffffffffffffffffffffffffffffffffffffffffffffffffff6676676766676775ff76ffff6565555555556564ff65ff65ff66666656666675ff66ff65ff65655655566664ff65ff7666ff665666566665ff76ff7555ff655555555564ff65ff545565ff5555555564ff55ff656565ff6555556564ff65ff65555565ff55555664ff65ff65656565ff55556564ff65ff6666656666ff566565ff65ff6565656565ff556564ff65ff666665665655ff5564ff65ff656665655555ff6564ff65ff65667666676666ff75ff66ff54555454444444ff53ff54ff7666666666575676ffff66ff7566655555556564ffff65ffffffffffffffffffffffffffffffffffffffffffffffffff766666766656566665ffffff666665666555556564ffff
  0x1ffffffffffffffffffffffffffffffffffffffffffffffffffff6776676666667765ff76ffff6666666666566765ff76ff65ff56566655565664ff65ff65ff66566655565664ff65ff7556ff665555565664ff65ff6556ff566655565664ff65ff555565ff5655566564ff65ff655666ff6555567664ff65ff64455556ff44454553ff54ff66666666ff65566665ff66ff6666665666ff666665ff65ff6666656666ff666675ff65ff656656565655ff5664ff65ff655666556655ff5664ff65ff76667667676666ff75ff76ff55555545555445ff54ff55ff6666665667566666ffff66ff6666665666566666ffff66ffffffffffffffffffffffffffffffffffffffffffffffffff765766666666566765ffffff666666566665566665ffff
  0x1ffffffffffffffffffffffffffffffffffffffffffffffffffff67666566565766ff6666ffff65656566565566ff6565ff65ff566566554667ff6665ff53ff544444545555ff5464ff7656ff6656565666ff6665ff6455ff5555454565ff6554ff655655ff56454565ff5554ff656666ff66565666ff6565ff65565555ff454556ff6554ff64565555ff454565ff6554ff6566665656ff5666ff6565ff6466656565ff5566ff6574ff666656565656ff66ff6565ff645565555545ff66ff6554ff75676665565656ffff6665ff54454454453434ffff5443ffffffffffffffffffffffffffffffffffffffffffffffffff6567666656555666ffff65ff6456555555454565ffff54ff6556566556554766ff66ffff6566655556555665ff65ff
  0x1ffffffffffffffffffffffffffffffffffffffffffffffffffff66676666665666ff7676ffff66666565556566ff6666ff65ff566455455556ff5655ff65ff566566465667ff6655ff7666ff6566566656ff6666ff6566ff6455455556ff5656ff556656ff66455555ff4655ff756666ff65566566ff6666ff65665665ff455546ff5555ff65665564ff455566ff6655ff6666666556ff5666ff6666ff6665666565ff6565ff6665ff666666655656ff55ff6565ff656656645555ff56ff5656ff66766666675666ffff5766ff54554553443444ffff5544ffffffffffffffffffffffffffffffffffffffffffffffffff6666667656566556ffff66ff6565555564455566ffff55ff7666666565565666ff66ffff6666666555565666ff66ff
  0x1ffffffffffffffffffffffffffffffffffffffffffffffffffff657666666666ff656666ffff646555655555ff656565ff65ff6666666665ff656666ff75ff6566666666ff756666ff7566ff66656666ff756666ff6554ff65655555ff645565ff655455ff655555ff545665ff656465ff655555ff656665ff64546555ff5555ff645555ff66656666ff6665ff656666ff6555665556ff56ff646555ff5564656565ff55ff556565ff656565555655ffff646565ff656566666566ffff656666ffffffffffffffffffffffffffffffffffffffffffffffffff66757666766666ffff6666ff66666656565656ffff6565ff75657666666666ff75ff66ff65646555655555ff64ff65ff66656666666666ff6566ffff65656655565555ff6465ff
  0x1ffffffffffffffffffffffffffffffffffffffffffffffffffff667666676667ff756676ffff667665666666ff756666ff66ff6666666666ff756666ff65ff5665665556ff645665ff6556ff65665556ff646665ff6556ff65555556ff645665ff544555ff564445ff534554ff656665ff655555ff646555ff55556556ff5556ff646565ff64466564ff4445ff536554ff6666666667ff67ff656665ff6556656565ff55ff645665ff655566555666ffff646566ff655655655655ffff645665ffffffffffffffffffffffffffffffffffffffffffffffffff66676656665656ffff6665ff66666666565665ffff6666ff76666666566666ff65ff66ff65566666555556ff64ff65ff75566665665556ff6466ffff66666666566656ff7566ff
  0x1ffffffffffffffffffffffffffffffffffffffffffffffffffff6656666666ff66656655ffff6555656555ff65645565ff54ff45555544ff45535554ff54ff45645544ff56535554ff6556ff556655ff56645565ff6455ff545554ff56635555ff545545ff5544ff55534554ff656555ff6555ff65646565ff54554555ff44ff45535554ff54554554ff44ff55535554ff6556565566ffff66646555ff6565656565ffff65646564ffffffffffffffffffffffffffffffffffffffffffffffffff656556666655ffff645665ff434434434433ffff424443ff656656556646ff66ff6656ff656555666556ff65ff6665ff555656666655ff5664ff65ff545445555444ff5553ff54ff655646655656ff665566ffff555555555555ff656465ff
  0x1ffffffffffffffffffffffffffffffffffffffffffffffffffff5666656655ff66646566ffff5565656555ff65646555ff65ff65656655ff66546554ff64ff55555555ff66546565ff6556ff656655ff66646665ff6445ff545544ff55535554ff544555ff5644ff65534554ff655565ff6555ff65646565ff64456556ff44ff45536554ff64466564ff44ff65536554ff6556665556ffff55646555ff6555656566ffff65546564ffffffffffffffffffffffffffffffffffffffffffffffffff655666666655ffff645665ff533554434533ffff425443ff656665556646ff66ff6655ff646665656555ff65ff5565ff755665655655ff5664ff65ff644565555444ff6553ff54ff644665545544ff565355ffff655665555555ff556465ff
  0x1ffffffffffffffffffffffffffffffffffffffffffffffffffff55665556ff6665646556ffff66656666ff6666656565ff65ff556566ff5556656564ff65ff555556ff5566556564ff7666ff6666ff6666756675ff6555ff5556ff6565646564ff655555ff56ff5565645564ff666666ff66ff6666657575ff65555556ffff5555646564ff65655565ffff5565646564ffffffffffffffffffffffffffffffffffffffffffffffffff6655665556ffff55646565ff6555665556ffff65646575ff6666666667ff66ff756665ff5444444445ff44ff535453ff6656575566ff6666ff6666ff5555555555ff5664ff6465ff6666666657ff666665ff75ff6555555655ff556564ff64ff7666676666ff56666576ffff6555665556ff65656465ff
  0x1ffffffffffffffffffffffffffffffffffffffffffffffffffff66667667ff5666656665ffff55556565ff5565545555ff54ff555455ff5556635545ff64ff555555ff5665646555ff6556ff6566ff5656646655ff5455ff5455ff4554535544ff545555ff55ff4555534544ff656566ff65ff5665646555ff54555555ffff4545535544ff54565564ffff4555535544ffffffffffffffffffffffffffffffffffffffffffffffffff6566665556ffff55646555ff5456555455ffff55635545ff6566666666ff56ff645655ff4345444344ff34ff424433ff6556555556ff4566ff6554ff6566656565ff5565ff6665ff6566666656ff565564ff55ff5455555554ff455553ff44ff6556556556ff46665466ffff5556655555ff55656455ff
  0x1ffffffffffffffffffffffffffffffffffffffffffffffffffff566566ff555656646565ffff556565ff555565646565ff65ff5655ff555656646565ff64ff5554ff444556535554ff6445ff56ff444545535554ff6445ff64ff444566536554ff544555ffff444555534554ff655565ffff555565647565ffffffffffffffffffffffffffffffffffffffffffffffffff65565655ffff5666646555ff65556565ffff5565646564ff65566666ff55ff56646565ff64455554ff44ff55535554ff65566666ff5556ff645665ff53344443ff3334ff425443ff65566655ff465666ff6655ff65556566ff565565ff6565ff65565566ff55565664ff65ff54455455ff44456553ff54ff65465665ff5546565465ffff65555555ff5555666465ff
  0x1ffffffffffffffffffffffffffffffffffffffffffffffffffff666676ff666676757666ffff556565ff555565645565ff65ff6566ff555565645665ff65ff5665ff555666646665ff7666ff76ff666666656665ff6445ff64ff444565535554ff656555ffff555555645665ff655565ffff555565645665ffffffffffffffffffffffffffffffffffffffffffffffffff76666666ffff5665656665ff65556565ffff5565645665ff65665666ff55ff55646665ff65565565ff55ff65645665ff76656666ff6666ff756676ff54454454ff4444ff534554ff76666666ff575676ff6665ff65666555ff556564ff5565ff65566566ff55556564ff65ff64555565ff55555564ff55ff75565565ff5556666466ffff65566565ff5556656465ff
  0x1ffffffffffffffffffffffffffffffffffffffffffffffffffff6676ff67666775756666ffff5665ff65555675646565ff55ff66ff56555665646555ff55ff66ff55555665646565ff6556ffff66555665645665ff5555ffff55555665646565ffffffffffffffffffffffffffffffffffffffffffffffffff655666ffff555655646665ff656566ffff555665647665ff556566ff56ff5665646555ff666676ff66ff6665756675ff556566ff5655ff55646565ff555566ff5555ff65646565ff655666ff675556ff645665ff445455ff454445ff535454ff566667ff66566775ff6666ff556566ff56555664ff6565ff666666ff5766666665ff66ff644555ff5444456553ff54ff665667ff666657666566ffff555565ff555555646465ff
  0x1ffffffffffffffffffffffffffffffffffffffffffffffffffff6676ff66666676756666ffff5565ff65555565645655ff64ff65ff65555566645555ff64ff55ff65655666656555ff7566ffff66666666756666ff6455ffff65555565645555ffffffffffffffffffffffffffffffffffffffffffffffffff656565ffff555556645565ff646665ffff656565656555ff756676ff66ff6665656666ff655565ff65ff6565645665ff756666ff6666ff65656666ff645665ff6565ff65645555ff766676ff676666ff756676ff534554ff544444ff534444ff756666ff66565676ff6666ff655665ff55656564ff5566ff655565ff6555556564ff65ff655555ff6555555664ff65ff756666ff665656766566ffff656666ff666666656565ff
  0x1ffffffffffffffffffffffffffffffffffffffffffffffffffff66ff6657666666656666ffff65ff6555555565646565ff65ffff6656555656646665ff64ffff5445444555535554ffffffffffffffffffffffffffffffffffffffffffffffffff5455ffff45444554534554ff6565ffff55555565646565ff6455ff55ff444545535454ff6455ff54ff444555535554ff6566ff5556ff5556646554ff6565ff6555ff5565646564ff6455ff554544ff45535554ff6455ff544544ff55535554ff6566ff66565556ff645665ff5344ff43343334ff425443ff6566ff5556465666ff6655ff6565ff6555465555ff6655ff6566ff665655565664ff65ff6455ff454444446553ff54ff7556ff55465646655565ffff6565ff55555545565465ff
  0x1ffffffffffffffffffffffffffffffffffffffffffffffffffff67ff7676666677757676ffff66ff6665655566656666ff75ffff6565555656646655ff75ffff6566555666646665ffffffffffffffffffffffffffffffffffffffffffffffffff6566ffff66555556645665ff7566ffff65666576656666ff6556ff66ff555556645565ff7556ff65ff555566646665ff7666ff6666ff6666656666ff7556ff6565ff5566646654ff7677ff666666ff66656665ff6446ff545554ff56635555ff7666ff66666666ff756666ff6455ff54544444ff535554ff6557ff6566465666ff6655ff7566ff6565666565ff6666ff7666ff766566666665ff76ff7565ff656555556664ff65ff7556ff65665545665466ffff6666ff66666566656566ff
  0x1ffffffffffffffffffffffffffffffffffffffffffffffffffffff656556554656545565ffffff545454444454535454ffffffffffffffffffffffffffffffffffffffffffffffffff65ffff6555554556546565ff53ffff4344333444424443ff43ff44ff45333444423443ff54ff64ff54444454536454ff53ff5445ff333434424443ff53ff5453ff333455425443ff54ff554445ff4555535444ff54ff645454ff5454635463ff64ff65444545ff45535454ff53ff54434453ff45524454ff54ff5555564445ff534554ff42ff4332332223ff314332ff54ff554455354555ff5545ff64ff645554454456ff5564ff64ff65554644454653ff54ff53ff54444333345442ff43ff64ff5554554536554455ffff54ff5444444444555354ff
  0x1ffffffffffffffffffffffffffffffffffffffffffffffffffffff767667666766757676ffffff666666666676756666ffffffffffffffffffffffffffffffffffffffffffffffffff75ffff6656555656646665ff65ffff6556555666646665ff65ff66ff56555665645665ff76ff66ff66666676756676ff65ff6666ff555656646565ff65ff5665ff555666646665ff66ff676667ff6666757666ff65ff667666ff5676656665ff66ff66666666ff66656666ff65ff66655655ff66646665ff76ff6776676666ff756776ff54ff5554454445ff535554ff66ff666667576677ff7665ff65ff666666666675ff6566ff76ff66766666666675ff76ff65ff65565555566664ff65ff75ff6665565556666466ffff66ff6666666666667576ff
  0x1ffffffffffffffffffffffffffffffffffffffffffffffffffffffffffffffffffffffffffffffffffffffffffffffffffffff666666566666757666ffffff655556555665646565ffff66ff6666666666757676ffff65ff5555555565646565ffff6555ff56555565645555ffff7676ff66666676757576ffff656556ff555555646565ffff656565ff555565646565ffff65665556ff5665646555ffff66666566ff5565646565ffff6575555655ff55646565ffff6565555655ff65646565ffff766666676666ff756666ffff545444454444ff535454ffff66665666565676ff6666ffff65655555555664ff6565ffff6666665766566665ff76ffff6565565555556564ff65ffff666666675657666576ffffff656555555555656465ff
  0x1ffffffffffffffffffffffffffffffffffffffffffffffffffffffffffffffffffffffffffffffffffffffffffffffffffffff666576645566556656ffffff666665655666656656ffff66ff7666656667657766ffff56ff6565645566556656ffff5666ff66645566555656ffff5565ff65555565645665ffff566566ff545556546655ffff566665ff645565556656ffff66766667ff6666656656ffff66656565ff6565646555ffff6666666665ff56656666ffff5665656664ff66646655ffff667666676566ff656766ffff455554555344ff445545ffff66666666565676ff6656ffff66666666666666ff6566ffff6666666665566665ff66ffff5666666564556655ff56ffff566676665555665576ffffff666666666555666576ff
  1
  1)
 (mkT
  0x1ffffffffffffffffffffffffffffffffffffffffffffffffffff767766677676756666ffffff656665667465656556ffff66ff7666676676757666ffff54ff5554555353564545ffff7776ff76767676766677ffff6565ff64646464555556ffff667677ff766666666567ffff657465ff656565665666ffff66757776ff6565666567ffff65646565ff6464655556ffff6665666666ff66766566ffff6564656565ff64665656ffff666676666666ff756666ffff656464656564ff655556ffff65756565656464ff5656ffff55666665666555ff6456ffff6675667666657566ff67ffff6566665556656564ff55ffff767576756675756666ffffff667666657665656665ffffffffffffffffffffffffffffffffffffffffffffffffffff
  0x1ffffffffffffffffffffffffffffffffffffffffffffffffffff767766677676756766ffffff767777777677767677ffff76ff7766677767757666ffff55ff5665666455665766ffff7776ff77777676766777ffff6666ff66666566756766ffff777677ff777667767677ffff667566ff667666666776ffff76767777ff7667767677ffff66666676ff7566756667ffff6565665556ff66646655ffff6675667676ff66767776ffff766667666766ff756666ffff667566766775ff665666ffff66766766667566ff6776ffff66676676676656ff6567ffff6676676667756775ff66ffff6666676667665765ff66ffff777677776776677677ffffff667667767675667666ffffffffffffffffffffffffffffffffffffffffffffffffffff
  0x1ffffffffffffffffffffffffffffffffffffffffffffffffffff7677767776777676ff77ffff7576757575756666ff67ff77ff77767766767676ff77ff65ff65645564646656ff55ff7776ff767777777677ff77ff7675ff756575656656ff66ff767576ff7666667766ff76ff657465ff6565656656ff56ff77767776ff76767676ff76ff65746565ff65656656ff56ff6675766666ff767666ff67ff6574656565ff655656ff66ff777676767776ff7666ff77ff756475656575ff6656ff66ff76757675667575ff67ff66ff66766665666666ff75ff66ff7675767566767667ffff66ff6666666566757665ffff66ffffffffffffffffffffffffffffffffffffffffffffffffff767576767676666666ffffff777677766676767666ffff
  0x1ffffffffffffffffffffffffffffffffffffffffffffffffffff7677777766767767ff77ffff7677677766777677ff77ff77ff77677766767676ff77ff55ff56556664656656ff56ff7776ff777676767666ff77ff6666ff667665767766ff67ff777677ff7767777776ff77ff667566ff7666766766ff66ff66657676ff66676665ff76ff66766666ff75667666ff67ff7776766667ff777566ff66ff6675666676ff767777ff66ff777676677766ff7666ff67ff667566666765ff6656ff66ff66766766766576ff66ff67ff66766766776667ff75ff76ff6676676677757776ffff67ff6667665666556665ffff66ffffffffffffffffffffffffffffffffffffffffffffffffff777677677776767767ffffff667667666665667666ffff
  0x1ffffffffffffffffffffffffffffffffffffffffffffffffffff76776666656665ff6666ffff65656565646566ff5656ff76ff676667756776ff6766ff43ff444344524445ff3444ff7666ff6676656666ff6666ff5455ff5455635556ff4555ff666767ff66655666ff6666ff656465ff65646556ff5656ff65666665ff645666ff5665ff54555554ff635556ff4555ff6666675666ff6665ff6656ff6565656565ff6566ff5666ff765667566665ff75ff6666ff545555545563ff56ff4555ff54655554556355ffff4555ff56676656665556ffff6665ffffffffffffffffffffffffffffffffffffffffffffffffff6565656565746556ffff66ff5566665566645666ffff65ff6565666565755666ff67ffff6566565556646565ff55ff
  0x1ffffffffffffffffffffffffffffffffffffffffffffffffffff76776667767775ff6677ffff76777777767776ff7777ff66ff676667667675ff6677ff66ff676667666576ff6667ff7666ff6666777775ff6677ff6676ff6666666675ff6677ff677677ff76667776ff7677ff767566ff76766676ff7666ff66757766ff666765ff6666ff66767776ff667675ff6767ff6666676667ff6775ff6666ff7786777777ff7676ff7767ff656666555666ff64ff5566ff777676777776ff76ff6777ff77767767677676ffff7667ff56766766665566ffff5766ffffffffffffffffffffffffffffffffffffffffffffffffff7776777767777776ffff77ff6776777766667666ffff77ff7676776667777675ff66ffff7777776667677675ff66ff
  0x1ffffffffffffffffffffffffffffffffffffffffffffffffffff756676666666ff666666ffff646565656465ff565656ff66ff6666665665ff667666ff65ff6565747565ff576666ff6665ff66656666ff667676ff6564ff65656464ff565656ff767566ff666666ff666676ff546354ff545454ff455545ff65647666ff5556ff556665ff65746465ff6565ff565555ff6564655555ff65ff566556ff5463545454ff54ff564555ff667575666666ffff666666ff646365545564ffff465565ffffffffffffffffffffffffffffffffffffffffffffffffff65746565656565ffff5656ff66756666666666ffff7666ff75747565656565ff56ff66ff66756666666565ff66ff66ff65646565656555ff5656ffff66756666666565ff6666ff
  0x1ffffffffffffffffffffffffffffffffffffffffffffffffffff777777677677ff766777ffff767777677677ff767777ff77ff7777677677ff776777ff66ff6756666566ff666666ff7776ff77777677ff767777ff7777ff67676677ff766777ff666677ff666667ff756776ff777677ff677677ff767777ff77767777ff6677ff767777ff66667766ff6667ff756776ff6666776667ff67ff756666ff7776777767ff76ff767777ff777777676776ffff666776ff767676666775ffff666776ffffffffffffffffffffffffffffffffffffffffffffffffff77877777777677ffff7767ff66676666565566ffff5666ff77767777676677ff76ff77ff77777777776677ff76ff77ff77767767677677ff6677ffff77777767676666ff7767ff
  0x1ffffffffffffffffffffffffffffffffffffffffffffffffffff7677666776ff75666677ffff7666666776ff75767676ff66ff66666666ff65756676ff66ff56666665ff76656656ff7776ff777676ff76767776ff6665ff666676ff75656666ff666667ff6666ff75656676ff777676ff6676ff76667667ff66656766ff66ff65657676ff66656666ff65ff75656666ff6676676667ffff75756666ff6675666666ffff75766666ffffffffffffffffffffffffffffffffffffffffffffffffff767567666765ffff666666ff556656656655ffff645665ff677667777766ff76ff7767ff655656555655ff64ff6565ff766667766766ff7576ff76ff666666666666ff6565ff66ff777667777777ff767677ffff656666555666ff646655ff
  0x1ffffffffffffffffffffffffffffffffffffffffffffffffffff7567666775ff65566667ffff7576757665ff66566756ff76ff77666766ff75666676ff54ff55545553ff56364545ff6675ff667775ff66566776ff6565ff656564ff65455656ff666667ff6665ff76656676ff657465ff6565ff66566656ff66657776ff65ff66556766ff65656565ff64ff65455656ff6665666666ffff75556666ff6574656566ffff56565666ffffffffffffffffffffffffffffffffffffffffffffffffff657565656664ffff465656ff555666656655ffff645665ff667565767665ff66ff6656ff656666555655ff64ff5566ff767576766675ff6656ff67ff666666667665ff6655ff66ff656466656664ff554556ffff666667666665ff755666ff
  0x1ffffffffffffffffffffffffffffffffffffffffffffffffffff65665556ff6664665556ffff75666666ff7675766666ff65ff665556ff6664665566ff65ff665566ff6665566566ff7666ff6667ff6775666666ff6566ff5556ff6664655566ff767677ff67ff7775766666ff666566ff66ff6665666566ff66766766ffff6775666676ff65666665ffff6674665666ffffffffffffffffffffffffffffffffffffffffffffffffff6666665556ffff64565566ff6565665556ffff64665566ff6666665656ff66ff676576ff6666666666ff66ff656665ff7676776667ff7775ff6667ff5456554445ff5553ff4455ff6666666657ff676576ff76ff6666766666ff667566ff66ff6676676667ff66756666ffff6666665556ff65646655ff
  0x1ffffffffffffffffffffffffffffffffffffffffffffffffffff76677777ff7676677766ffff65667676ff6666565757ff77ff777777ff6776767766ff44ff455455ff5456454535ff6776ff7777ff7676667667ff5555ff6565ff6566565646ff777667ff77ff6676767766ff667566ff76ff6666666657ff66766776ffff6676666756ff55655565ffff5565565646ffffffffffffffffffffffffffffffffffffffffffffffffff6666676667ffff75666656ff5564556556ffff66565646ff5564556565ff65ff565646ff6666666666ff56ff656665ff5565566566ff6566ff5646ff7666676667ff6675ff6666ff6675667666ff666666ff57ff6666576666ff667666ff56ff7675757676ff66665667ffff5666676666ff66756666ff
  0x1ffffffffffffffffffffffffffffffffffffffffffffffffffff767777ff767776767677ffff767777ff767776767676ff77ff7777ff667676767676ff65ff6666ff655666556666ff6665ff76ff666666656776ff6666ff76ff666676656666ff666676ffff666776656676ff767576ffff766666667666ffffffffffffffffffffffffffffffffffffffffffffffffff66667766ffff6776756666ff66757676ffff6666766676ff77767677ff77ff76667676ff66656566ff65ff75656666ff76767677ff6667ff667677ff55556665ff5556ff645665ff66767677ff667776ff7767ff66676666ff656665ff6566ff77767777ff76777676ff77ff66667676ff66676665ff76ff77667677ff7667666676ffff76767766ff6666757666ff
  0x1ffffffffffffffffffffffffffffffffffffffffffffffffffff767677ff767776667676ffff757676ff757656566767ff77ff7677ff667676667777ff65ff6565ff746566565656ff7776ff77ff767776676676ff6565ff65ff646565455656ff777677ffff767676766777ff667465ffff656556565656ffffffffffffffffffffffffffffffffffffffffffffffffff76757667ffff7666666667ff65746565ffff6556665666ff77767677ff76ff76667767ff75747666ff75ff56566666ff65746566ff6565ff565656ff66666666ff6666ff756766ff76757676ff767667ff6767ff66667666ff666675ff6666ff76757566ff76766666ff66ff66756766ff65666656ff66ff76757576ff7566665667ffff66766776ff7576665676ff
  0x1ffffffffffffffffffffffffffffffffffffffffffffffffffff7677ff67767776767677ffff6666ff66757675666667ff66ff76ff66757675666666ff55ff56ff56646566555555ff7776ffff77767776667677ff6666ffff66756665666666ffffffffffffffffffffffffffffffffffffffffffffffffff767677ffff767776667677ff666666ffff756675666666ff666566ff66ff6675666657ff666566ff66ff7675666666ff666676ff6666ff75566666ff666566ff6675ff76666666ff667566ff667576ff666666ff666666ff666666ff756666ff677677ff77767776ff7766ff555665ff55646564ff5555ff677677ff6776777676ff77ff666677ff7666666665ff76ff666676ff667676756676ffff666666ff667575656666ff
  0x1ffffffffffffffffffffffffffffffffffffffffffffffffffff7566ff76767667677666ffff7576ff76757666676767ff76ff76ff77667676777777ff64ff65ff65646556565555ff6775ffff76767667677676ff7575ffff76757566566666ffffffffffffffffffffffffffffffffffffffffffffffffff767677ffff767666767777ff757575ffff757666666666ff767576ff66ff7666676667ff657465ff65ff6556675666ff767676ff7676ff76677777ff657466ff6675ff66565666ff757575ff667576ff676666ff656576ff766566ff666666ff757576ff76757667ff6666ff756666ff66657665ff6666ff657465ff6565655656ff56ff767677ff7676767766ff76ff767576ff767666676767ffff767677ff777676766776ff
  0x1ffffffffffffffffffffffffffffffffffffffffffffffffffff76ff7677767676767776ffff76ff6676757676666766ff77ffff7777667676767777ff55ffff5556645466555555ffffffffffffffffffffffffffffffffffffffffffffffffff6676ffff66666666756776ff6675ffff66666676667666ff6675ff76ff656666656666ff6665ff66ff656576656666ff6676ff7667ff6776656766ff6675ff6666ff6566666676ff6675ff766666ff66656766ff6665ff666665ff75656566ff6676ff66666565ff666666ff5566ff65565556ff645665ff6776ff7677667676ff7667ff6666ff6666656665ff6666ff7776ff767776767676ff76ff6676ff656565656665ff66ff7776ff77677667766676ffff6666ff66666566756666ff
  0x1ffffffffffffffffffffffffffffffffffffffffffffffffffff76ff7777767676677777ffff76ff7676757666666766ff77ffff7777667676667777ff65ffff6565646566565656ffffffffffffffffffffffffffffffffffffffffffffffffff7776ffff77767776767777ff7675ffff75767567576767ff7776ff77ff767676667777ff7675ff76ff757666566767ff6675ff6666ff7665667666ff7675ff7675ff7566676756ff7776ff777776ff76767777ff6564ff656664ff55455656ff7675ff76757576ff576767ff6667ff66666666ff756666ff6675ff7676657666ff6757ff7666ff6666666675ff6666ff8675ff767676766666ff77ff7776ff777676777666ff77ff7675ff76767565665667ffff7776ff77777677766677ff
  0x1ffffffffffffffffffffffffffffffffffffffffffffffffffffff766666656666656666ffffff666676666666756665ffffffffffffffffffffffffffffffffffffffffffffffffff76ffff6666666766757676ff55ffff6565555665645665ff55ff66ff65555666645665ff66ff76ff66666666656666ff55ff6665ff555656645665ff55ff6665ff555676645665ff55ff666566ff5666645665ff66ff766676ff6676756665ff66ff76666766ff66756675ff65ff66656665ff66645666ff66ff7766766667ff756776ff44ff5554554445ff534554ff56ff676667566777ff6666ff66ff666666665675ff6666ff66ff76666666676675ff76ff55ff66656555565664ff65ff66ff7666766656766567ffff66ff6666665666657566ff
  0x1ffffffffffffffffffffffffffffffffffffffffffffffffffffff777776767776677777ffffff777666757667676767ffffffffffffffffffffffffffffffffffffffffffffffffff77ffff7776767777667777ff76ffff6676657566566767ff77ff77ff77766777667777ff75ff76ff65757567576666ff76ff7777ff667776667777ff65ff6565ff646566465656ff77ff767666ff7676667777ff66ff666665ff7567675767ff76ff77677676ff76677777ff76ff76756675ff66566767ff65ff6665666465ff575656ff66ff7776676667ff756776ff76ff767676767677ff6767ff76ff676667667775ff6677ff76ff76767675766757ff67ff77ff77777776767766ff77ff76ff7676757576665667ffff77ff7777777676766777ff
  0x1ffffffffffffffffffffffffffffffffffffffffffffffffffffffffffffffffffffffffffffffffffffffffffffffffffffff777666757666676766ffffff565566546466565556ffff76ff7677767676667777ffff66ff6665657666666666ffff6576ff66657666666666ffff6566ff66667675667666ffff767777ff767676667676ffff656666ff656575666666ffff65766666ff7666666656ffff75666666ff7565666676ffff6676666665ff65566667ffff6565666665ff66666665ffff766666666575ff676666ffff766666666666ff756665ffff76767677766676ff7767ffff56666555646655ff5566ffff6677676666766676ff77ffff7667666675767666ff66ffff767677676677766777ffffff666665656565666666ff
  0x1ffffffffffffffffffffffffffffffffffffffffffffffffffffffffffffffffffffffffffffffffffffffffffffffffffffff776667666775756666ffffff555455635456464545ffff76ff7777767776767777ffff65ff6565646565555656ffff7777ff76666776756766ffff7465ff65656556565656ffff766776ff656666656766ffff656665ff646565555656ffff76666667ff6675656666ffff74656565ff6566665656ffff6667666775ff75666666ffff6565656674ff65555656ffff656665667465ff565656ffff666665665556ff645655ffff65666566646666ff5656ffff66665556656664ff5556ffff7576766675766666ff67ffff7667667665666665ff66ffff757676767565665667ffffff766766676576756666ff
  1
  1).
